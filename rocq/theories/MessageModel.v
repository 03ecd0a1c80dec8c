(** The layouts of the messages whose structs carry version attributes, and
    the admin requests that wrap objects of different kinds.
    Source: crates/fluvio-controlplane-metadata/src (metadata objects),
    crates/fluvio-spu-schema/src, crates/fluvio-smartmodule/src,
    crates/fluvio-sc-schema/src/objects.

    Simplifications, for the whole file:
    - a [FluvioSemVersion] is its text (it is encoded as text,
      smartmodule/package.rs:254-283); that the decoder refuses text that is
      not a version number is left out;
    - [PhantomData] fields write nothing (fluvio-protocol
      core/encoder.rs:104-119) and are left out. *)
From Verif Require Export VersionModel.

(** * Shorthands for schemas *)

Definition t_u8 := VLeaf (LInt U8).
Definition t_u16 := VLeaf (LInt U16).
Definition t_u32 := VLeaf (LInt U32).
Definition t_u64 := VLeaf (LInt U64).
Definition t_i16 := VLeaf (LInt I16).
Definition t_i32 := VLeaf (LInt I32).
Definition t_i64 := VLeaf (LInt I64).
Definition t_bool := VLeaf LBool.
Definition t_str := VLeaf LStr.
Definition t_buf := VLeaf LBuf.
Definition t_dur := VLeaf LDur.
Definition t_blob := VVec t_u8.                    (* Vec<u8> *)

Definition zero := UI 0.
Definition no := UB false.
Definition none := UO None.
Definition empty := US [].
Definition nil_ := UL [].
Definition unit_ := UT [].

(** A field: first version, last version, default, type.  A field without
    attribute has min_version 0 (prop.rs:174-190). *)
Definition field := (Z * option Z * uval * vty)%type.
Definition req (d : uval) (t : vty) : field := (0, None, d, t).
Definition since (m : Z) (d : uval) (t : vty) : field := (m, None, d, t).
Definition between (a b : Z) (d : uval) (t : vty) : field := (a, Some b, d, t).
(** Fields of enum variants and of hand-written encoders are sent at every
    version (versions are i16). *)
Definition always (d : uval) (t : vty) : field := (- 2 ^ 15, None, d, t).

Fixpoint fields (l : list field) : vfields :=
  match l with
  | [] => FNil
  | (min, max, d, t) :: l' => FCons min max d t (fields l')
  end.
Definition struct (l : list field) : vty := VStruct (fields l).

(** A variant: tag, first version, payload. *)
Fixpoint variants (l : list (Z * Z * vty)) : vvars :=
  match l with
  | [] => NNil
  | (tag, s, t) :: l' => NCons tag s t (variants l')
  end.
(** Enums without [repr] have u8 tags (ser.rs:299, 385; de.rs:45). *)
Definition enum (l : list (Z * Z * vty)) : vty := VEnum U8 (variants l).
Definition t_unit := struct [].
(** An enum without data whose variants exist since the beginning. *)
Definition plain (tags : list Z) : vty := enum (map (fun t => (t, 0, t_unit)) tags).
Definition tag0 := UE 0 unit_.

(** * Metadata objects *)

(** HomePartitionConfig: partition/spec.rs:201-218 *)
Definition home_partition := struct [req empty t_str; req empty t_str; since 18 no t_bool].
(** RemotePartitionConfig: partition/spec.rs:226-245 *)
Definition remote_partition :=
  struct [req empty t_str; req empty t_str; req zero t_i32; req empty t_str; since 18 no t_bool].
(** PartitionMirrorConfig: partition/spec.rs:121-133 *)
Definition partition_mirror := enum [(0, 0, remote_partition); (1, 0, home_partition)].

(** PartitionMap: topic/spec.rs:599-614 *)
Definition partition_map := struct [req zero t_u32; req nil_ (VVec t_i32); since 14 none (VOpt partition_mirror)].
(** PartitionMaps, a tuple struct: topic/spec.rs:414-420 *)
Definition partition_maps := struct [req nil_ (VVec partition_map)].
(** TopicReplicaParam: topic/spec.rs:359-375 *)
Definition replica_param := struct [req zero t_u32; req zero t_u32; req no t_bool].
(** SpuMirrorConfig: topic/spec.rs:892-902 *)
Definition spu_mirror := struct [req zero t_i32; req empty t_str; req empty t_str].
(** RemoteMirrorConfig: topic/spec.rs:877-890 *)
Definition remote_mirror := struct [req empty t_str; req nil_ (VVec spu_mirror); since 18 no t_bool].
(** HomeMirrorInner: topic/spec.rs:797-812; HomeMirrorConfig, a tuple struct: 698-706 *)
Definition home_mirror := struct [req (UT [nil_; no]) (struct [req nil_ (VVec home_partition); since 18 no t_bool])].
(** MirrorConfig: topic/spec.rs:616-627 *)
Definition mirror_config := enum [(0, 0, remote_mirror); (1, 0, home_mirror)].
(** ReplicaSpec: topic/spec.rs:196-212, default 224-228 *)
Definition replica_spec := enum [(0, 0, partition_maps); (1, 0, replica_param); (2, 14, mirror_config)].
Definition default_replicas := UE 1 (UT [zero; zero; no]).

(** SegmentBasedPolicy, CleanupPolicy: topic/spec.rs:941-971 *)
Definition cleanup_policy := enum [(0, 0, struct [req zero t_u32])].
(** TopicStorageConfig: topic/spec.rs:979-988 *)
Definition storage_config := struct [req none (VOpt t_u32); req none (VOpt t_u64)].
(** CompressionAlgorithm: topic/spec.rs:990-1010; the default is Any *)
Definition compression := plain [0; 1; 2; 3; 4; 5].
Definition any_compression := UE 4 unit_.
(** Bounds, Transform, Filter, Deduplication: topic/deduplication.rs:6-65 *)
Definition dedup_bounds := struct [req zero t_u64; req none (VOpt t_dur)].
Definition dedup_transform := struct [req empty t_str; req (UM []) (VMap KStr t_str)].
Definition deduplication :=
  struct [req (UT [zero; none]) dedup_bounds;
          req (UT [UT [empty; UM []]]) (struct [req (UT [empty; UM []]) dedup_transform])].

(** TopicSpec: topic/spec.rs:17-42 *)
Definition topic_fields :=
  [req default_replicas replica_spec; since 3 none (VOpt cleanup_policy); since 4 none (VOpt storage_config);
   since 6 any_compression compression; since 12 none (VOpt deduplication); since 13 no t_bool].
Definition topic_spec := struct topic_fields.

(** TopicStatus: topic/status.rs:22-35, default 118-127; TopicResolution: 43-59 *)
Definition topic_status :=
  struct [req tag0 (plain [0; 1; 2; 3; 4; 5]); req (UM []) (VMap (KInt U32) (VVec t_i32));
          since 14 (UM []) (VMap (KInt U32) partition_mirror); req empty t_str].

(** PartitionSpec: partition/spec.rs:11-36 *)
Definition partition_spec :=
  struct [req zero t_i32; req nil_ (VVec t_i32); since 4 none (VOpt cleanup_policy);
          since 4 none (VOpt storage_config); since 6 any_compression compression;
          since 12 none (VOpt deduplication); since 13 no t_bool; since 14 none (VOpt partition_mirror)].

(** ReplicaStatus: partition/status.rs:176-202 *)
Definition replica_status := struct [req (UI (-1)) t_i32; req (UI (-1)) t_i64; req (UI (-1)) t_i64].
Definition default_replica := UT [UI (-1); UI (-1); UI (-1)].
(** PartitionResolution: partition/status.rs:160-174 *)
Definition partition_resolution :=
  enum [(0, 0, t_unit); (1, 0, t_unit); (2, 0, t_unit); (3, 0, t_unit); (4, 19, t_unit)].
(** PartitionStatus: partition/status.rs:20-58; SIZE_NOT_SUPPORTED: 81 *)
Definition partition_status :=
  struct [req tag0 partition_resolution; req default_replica replica_status; req zero t_u32;
          req nil_ (VVec replica_status); since 5 (UI (-2)) t_i64; req no t_bool; since 16 zero t_i64].

(** EncryptionEnum: spu/spec.rs:335-343; Endpoint: 265-275, default 315-323 *)
Definition localhost := [49; 50; 55; 46; 48; 46; 48; 46; 49].       (* "127.0.0.1" *)
Definition endpoint := struct [req zero t_u16; req (US localhost) t_str; req tag0 (plain [0; 1])].
Definition default_endpoint := UT [zero; US localhost; tag0].
(** IngressAddr: spu/spec.rs:238-243; IngressPort: 176-186 *)
Definition ingress_port :=
  struct [req zero t_u16; req nil_ (VVec (struct [req none (VOpt t_str); req none (VOpt t_str)])); req tag0 (plain [0; 1])].
Definition default_ingress := UT [zero; nil_; tag0].
(** SpuSpec: spu/spec.rs:22-41; SpuType: 345-354 *)
Definition spu_spec :=
  struct [req zero t_i32; req tag0 (plain [0; 1]); req default_ingress ingress_port;
          req default_endpoint endpoint; req none (VOpt t_str); since 1 none (VOpt endpoint)].
(** SpuStatus: spu/status.rs:12-16; SpuStatusResolution: 64-75, the default is Init *)
Definition spu_status := struct [req (UE 2 unit_) (plain [0; 1; 2])].
(** CustomSpuSpec: spu/spec.rs:128-142 *)
Definition custom_spu_spec :=
  struct [req zero t_i32; req default_ingress ingress_port; req default_endpoint endpoint;
          req none (VOpt t_str); req none (VOpt endpoint)].

(** SpuGroupSpec and its parts: spg/spec.rs:6-66, 88-97 *)
Definition spu_config :=
  struct [req none (VOpt t_str); req none (VOpt (struct [req none (VOpt t_u16)]));
          req none (VOpt (struct [req none (VOpt t_str); req none (VOpt t_str)]));
          req nil_ (VVec (struct [req empty t_str; req empty t_str]))].
Definition spu_group_spec := struct [req zero t_u16; req zero t_i32; req (UT [none; none; none; nil_]) spu_config].
(** SpuGroupStatus: spg/status.rs:7-19, 47-57 *)
Definition spu_group_status := struct [req tag0 (plain [0; 1; 2]); req none (VOpt t_str)].

(** TableFormatSpec and its parts: tableformat/spec.rs:5-17, 39-70, 77-86, 132-141 *)
Definition table_column :=
  struct [req none (VOpt t_str); req none (VOpt t_str); req none (VOpt (plain [0; 1; 2])); req empty t_str;
          req none (VOpt t_str); req none (VOpt t_bool); req none (VOpt t_bool);
          req none (VOpt (plain [0; 1; 2])); req none (VOpt (plain [0; 1; 2]))].
Definition table_format_spec :=
  struct [req empty t_str; req none (VOpt (plain [0])); req none (VOpt (VVec table_column)); req none (VOpt t_str)].
(** TableFormatStatus: tableformat/status.rs:7-19, 47-61 *)
Definition table_format_status := struct [req tag0 (plain [0; 1; 2; 3; 4]); req none (VOpt t_str)].

(** SmartModulePackage: smartmodule/package.rs:68-91; the default version is
    "0.1.0" (242-246); SmartModuleVisibility: 132-138 *)
Definition v010 := US [48; 46; 49; 46; 48].
Definition package :=
  struct [req empty t_str; req empty t_str; req v010 t_str; req v010 t_str; req none (VOpt t_str);
          req none (VOpt t_str); since 19 tag0 (plain [0; 1]); req none (VOpt t_str)].
Definition default_package := UT [empty; empty; v010; v010; none; none; tag0; none].
(** SmartModuleParam, SmartModuleParams: smartmodule/params.rs:7-12, 28-34 *)
Definition sm_params := struct [req (UM []) (VMap KStr (struct [req none (VOpt t_str); req no t_bool]))].
(** SmartModuleMetadata: smartmodule/package.rs:18-23 *)
Definition sm_metadata := struct [req default_package package; req (UT [UM []]) sm_params].
(** SmartModuleWasm: smartmodule/spec.rs:105-111, 157-167 *)
Definition sm_wasm := struct [req tag0 (plain [0; 1]); req empty t_buf].
Definition default_wasm := UT [tag0; empty].
(** SmartModuleSpec from version 10 on, hand-written: smartmodule/spec.rs:39-45,
    60-64, 79-83; SmartModuleWasmSummary: 100-103 *)
Definition smartmodule_spec :=
  struct [always none (VOpt sm_metadata); always none (VOpt (struct [req zero t_u32])); always default_wasm sm_wasm].
(** SmartModuleSpecV1: smartmodule/spec_v1.rs:5-62 *)
Definition smartmodule_v1 :=
  struct [req tag0 (plain [0; 1]); req tag0 (plain [0; 1; 2]);
          req none (VOpt (struct [req tag0 (plain [0]); req empty t_str]));
          req default_wasm sm_wasm; req none (VOpt (VVec (struct [req empty t_str])))].
(** SmartModuleSpec at any version: smartmodule/spec.rs:26-87.  Before version
    10 the module is written as a V1 object with everything but the code at its
    default, and of what is read only the code is kept. *)
Definition smartmodule_codec (v : Z) : codec uval :=
  if v <? 10 then
    via (fun old => UT [none; none; nth 3 (as_t old) default_wasm])
        (fun x => UT [tag0; tag0; none; nth 2 (as_t x) default_wasm; none])
        (vcodec v smartmodule_v1)
  else vcodec v smartmodule_spec.

(** MirrorSpec and its parts: mirror/spec.rs:5-14, 31-40, 58-93 *)
Definition mirror_spec :=
  struct [req (UE 0 (UT [empty]))
            (enum [(0, 0, struct [req empty t_str]);
                   (1, 0, struct [req empty t_str; req empty t_str; req empty t_str;
                                  req none (VOpt (struct [req empty t_str; req empty t_str; req empty t_str; req empty t_str]))])])].
(** MirrorPairStatus: mirror/status.rs:63-79 *)
Definition pair_status :=
  enum [(0, 0, t_unit); (1, 0, t_unit); (2, 0, t_unit); (3, 0, t_unit); (4, 0, t_unit); (5, 17, t_str)].
(** MirrorStatus: mirror/status.rs:3-16, 81-99 *)
Definition mirror_status :=
  struct [req tag0 (plain [0; 1]); req tag0 pair_status; req tag0 pair_status; req (UT [zero]) (struct [req zero t_u64])].

(** * Messages between SPU, SC and clients *)

(** Lookback, SmartModuleExtraParams: fluvio-smartmodule/src/input.rs:16-21, 57-62 *)
Definition lookback := struct [req zero t_u64; since 21 none (VOpt t_dur)].
Definition extra_params := struct [req (UM []) (VMap KStr t_str); since 20 none (VOpt lookback)].
Definition default_params := UT [UM []; none].
(** SmartModuleInput: fluvio-smartmodule/src/input.rs:81-96 *)
Definition smartmodule_input :=
  struct [req zero t_i64; req nil_ t_blob; between 0 22 default_params extra_params;
          between 16 22 nil_ t_blob; since 22 zero t_i64].
(** SmartModuleContextData: fluvio-spu-schema/src/server/smartmodule.rs:168-182 *)
Definition context_data :=
  enum [(0, 0, t_unit); (1, 0, struct [always nil_ t_blob]); (2, 0, t_str);
        (3, 0, struct [always empty t_str; always empty t_str])].
(** SmartModuleKind: fluvio-spu-schema/src/server/smartmodule.rs:123-150 *)
Definition invocation_kind :=
  enum [(0, 0, t_unit); (1, 0, t_unit); (2, 15, t_unit); (3, 0, struct [always nil_ t_blob]); (4, 15, t_unit);
        (5, 16, t_str); (6, 16, struct [always empty t_str; always empty t_str]); (7, 17, context_data)].
(** SmartModuleInvocation, hand-written: server/smartmodule.rs:25-75;
    SmartModuleInvocationWasm: 77-85, default 104-108 *)
Definition invocation :=
  struct [always (UE 1 nil_) (enum [(0, 0, t_str); (1, 0, t_blob)]); always tag0 invocation_kind;
          always default_params extra_params; since 25 none (VOpt t_str)].
(** DerivedStreamInvocation: server/stream_fetch.rs:112-116 *)
Definition derived_stream := struct [req empty t_str; req default_params extra_params].
(** StreamFetchRequest: server/stream_fetch.rs:57-92; Isolation: isolation.rs:4-12 *)
Definition stream_fetch :=
  struct [req empty t_str; req zero t_u32; req zero t_i64; req zero t_i32; req tag0 (plain [0; 1]);
          between 11 18 nil_ t_blob; between 16 18 none (VOpt invocation); between 16 18 none (VOpt derived_stream);
          since 18 nil_ (VVec invocation); since 23 none (VOpt t_str)].

(** ReplicaKey: fluvio-protocol/src/record/replica.rs:8-12; LrsRequest, SpuStat,
    UpdateLrsRequest: fluvio-controlplane/src/sc_api/update_lrs.rs:14-18, 50-54, 59-68 *)
Definition lrs_request :=
  struct [req (UT [empty; zero]) (struct [req empty t_str; req zero t_u32]); req default_replica replica_status;
          req nil_ (VVec replica_status); req zero t_i64; since 1 zero t_i64].
Definition update_lrs := struct [req nil_ (VVec lrs_request); req (UT [zero; zero]) (struct [req zero t_u32; req zero t_u32])].

(** The messages modelled. *)
Inductive message :=
| MTopicSpec | MTopicStatus | MPartitionSpec | MPartitionStatus | MSpuSpec | MSpuStatus | MCustomSpuSpec
| MSpuGroupSpec | MSpuGroupStatus | MTableFormatSpec | MTableFormatStatus | MSmartModuleSpec
| MMirrorSpec | MMirrorStatus | MStreamFetch | MSmartModuleInput | MUpdateLrs.

Definition msg_ty (m : message) : vty :=
  match m with
  | MTopicSpec => topic_spec
  | MTopicStatus => topic_status
  | MPartitionSpec => partition_spec
  | MPartitionStatus => partition_status
  | MSpuSpec => spu_spec
  | MSpuStatus => spu_status
  | MCustomSpuSpec => custom_spu_spec
  | MSpuGroupSpec => spu_group_spec
  | MSpuGroupStatus => spu_group_status
  | MTableFormatSpec => table_format_spec
  | MTableFormatStatus => table_format_status
  | MSmartModuleSpec => smartmodule_spec
  | MMirrorSpec => mirror_spec
  | MMirrorStatus => mirror_status
  | MStreamFetch => stream_fetch
  | MSmartModuleInput => smartmodule_input
  | MUpdateLrs => update_lrs
  end.

(** * Admin requests *)

(** COMMON_VERSION, DYN_OBJ: fluvio-sc-schema/src/objects/mod.rs:18-19 *)
Definition common_version : Z := 19.
Definition dyn_obj : Z := 11.
(** The lowest versions a server announces for create, delete and update:
    create.rs:43, delete.rs:66, update.rs:64. *)
Definition min_create : Z := 9.
Definition min_delete : Z := 1.
Definition min_update : Z := 1.

Inductive obj := OTopic | OCustomSpu | OSpuGroup | OSmartModule | OTableFormat | OMirror.
Definition all_objs := [OTopic; OSpuGroup; OCustomSpu; OSmartModule; OTableFormat; OMirror].

(** LABEL of the specs: topic/mod.rs:25, spu/mod.rs:84, spg/mod.rs:20,
    smartmodule/mod.rs:24, tableformat/mod.rs:17, mirror/mod.rs:20 *)
Definition label (o : obj) : bytes :=
  match o with
  | OTopic => [84; 111; 112; 105; 99]                                        (* Topic *)
  | OCustomSpu => [67; 117; 115; 116; 111; 109; 83; 112; 117]                (* CustomSpu *)
  | OSpuGroup => [83; 112; 117; 71; 114; 111; 117; 112]                      (* SpuGroup *)
  | OSmartModule => [83; 109; 97; 114; 116; 77; 111; 100; 117; 108; 101]     (* SmartModule *)
  | OTableFormat => [84; 97; 98; 108; 101; 70; 111; 114; 109; 97; 116]       (* TableFormat *)
  | OMirror => [77; 105; 114; 114; 111; 114]                                 (* Mirror *)
  end.

Definition spec_codec (v : Z) (o : obj) : codec uval :=
  match o with
  | OTopic => vcodec v topic_spec
  | OCustomSpu => vcodec v custom_spu_spec
  | OSpuGroup => vcodec v spu_group_spec
  | OSmartModule => smartmodule_codec v
  | OTableFormat => vcodec v table_format_spec
  | OMirror => vcodec v mirror_spec
  end.

Fixpoint bytes_eqb (a b : bytes) : bool :=
  match a, b with
  | [], [] => true
  | x :: a', y :: b' => (x =? y) && bytes_eqb a' b'
  | _, _ => false
  end.
Definition by_label (l : bytes) : option obj := find (fun o => bytes_eqb (label o) l) all_objs.

(** CommonCreateRequest: create.rs:12-18 *)
Definition create_common := struct [req empty t_str; req no t_bool; since 7 none (VOpt t_u32)].

(** CREATE_TYPE: classic.rs:587-665 *)
Definition create_type (o : obj) : Z :=
  match o with
  | OTopic => 0 | OCustomSpu => 1 | OSpuGroup => 2 | OSmartModule => 4 | OTableFormat => 5 | OMirror => 6
  end.
(** The types the classic decoder knows: classic.rs:537-577 (no Mirror). *)
Definition by_create_type (t : Z) : option obj :=
  find (fun o => create_type o =? t) [OTopic; OTableFormat; OCustomSpu; OSpuGroup; OSmartModule].

(** A create request: the object, the common part, the spec. *)
Definition create := (obj * uval * uval)%type.

(** ClassicObjectApiCreateRequest (classic.rs:431-435) and
    ClassicObjectCreateRequest (451-585): the common part, one byte for the
    type of the object, the spec. *)
Definition classic_enc (v : Z) (c : create) : bytes :=
  let '(o, common, spec) := c in
  c_enc (vcodec v create_common) common ++ c_enc (int_codec U8) (create_type o) ++ c_enc (spec_codec v o) spec.
Definition classic_dec (v : Z) (bs : bytes) : res (create * bytes) :=
  let* (common, r) := c_dec (vcodec v create_common) bs in
  let* (t, r) := c_dec (int_codec U8) r in
  match by_create_type t with
  | None => Err InvalidData
  | Some o => let* (spec, r) := c_dec (spec_codec v o) r in Ok (o, common, spec, r)
  end.

(** CreateRequest<S>: create.rs:21-25 *)
Definition plain_enc (v : Z) (c : create) : bytes :=
  let '(o, common, spec) := c in c_enc (vcodec v create_common) common ++ c_enc (spec_codec v o) spec.
Definition plain_dec (v : Z) (o : obj) (bs : bytes) : res (create * bytes) :=
  let* (common, r) := c_dec (vcodec v create_common) bs in
  let* (spec, r) := c_dec (spec_codec v o) r in
  Ok (o, common, spec, r).

(** TypeBuffer and CreateTypeBuffer: version, label, contents.
    metadata.rs:89-94, create.rs:115-119 *)
Record typed := { tb_version : Z; tb_ty : bytes; tb_buf : bytes }.

(** The decoder of both: the label, a length, that many bytes.
    metadata.rs:173-200, create.rs:221-250 *)
Definition typed_dec (v : Z) (bs : bytes) : res (typed * bytes) :=
  let* (ty, r) := c_dec string_codec bs in
  let* (len, r) := c_dec (int_codec U32) r in
  if zlen r <? len then Err Eof
  else Ok ({| tb_version := v; tb_ty := ty; tb_buf := ztake len r |}, zdrop len r).

(** What a client puts on the wire to create an object at version [v]:
    CreateTypeBuffer::encode, then its [Encoder] at the same version
    (create.rs:123-147, 201-216; fluvio/src/admin.rs:144-159). *)
Definition create_enc (v : Z) (c : create) : bytes :=
  if dyn_obj <=? v then
    let buf := plain_enc v c in
    c_enc string_codec (label (fst (fst c))) ++ c_enc (int_codec U32) (wrap_u 32 (zlen buf)) ++ buf
  else classic_enc v c.

(** What the server makes of it.  Decoder of ObjectApiCreateRequest
    (create.rs:84-110): a request of an old version is decoded, and stored in
    the buffer as it is written at COMMON_VERSION, labelled with the old
    version. *)
Definition create_dec (v : Z) (bs : bytes) : res (typed * bytes) :=
  if dyn_obj <=? v then typed_dec v bs
  else
    let* (c, r) := classic_dec v bs in
    Ok ({| tb_version := v; tb_ty := label (fst (fst c)); tb_buf := classic_enc common_version c |}, r).
(** The downcast (create.rs:156-183): the contents read at the version of the
    buffer; bytes left over are not looked at. *)
Definition create_downcast (o : obj) (b : typed) : res (option create) :=
  if bytes_eqb (tb_ty b) (label o) then
    if tb_version b <? dyn_obj then
      let* (c, _) := classic_dec (tb_version b) (tb_buf b) in
      if create_type (fst (fst c)) =? create_type o then Ok (Some c) else Ok None
    else
      let* (c, _) := plain_dec (tb_version b) o (tb_buf b) in Ok (Some c)
  else Ok None.
(** The handler tries the objects one after the other; a failing downcast ends
    it.  fluvio-sc services/public_api/create.rs:28-48 *)
Fixpoint try_objs (down : obj -> res (option create)) (l : list obj) : res (option create) :=
  match l with
  | [] => Ok None
  | o :: l' =>
      let* c := down o in
      match c with Some c => Ok (Some c) | None => try_objs down l' end
  end.
Definition create_received (v : Z) (bs : bytes) : res (option create) :=
  let* (b, _) := create_dec v bs in try_objs (fun o => create_downcast o b) all_objs.

(** ** Delete and update *)

(** DeleteKey: a String, for custom SPUs a CustomSpuKey, that is "Name" or "Id"
    followed by the name or the number (spu/mod.rs:102-198).
    Simplification: the enum is modelled with the tags 0 (Id) and 1 (Name) in
    front instead of these two words. *)
Definition key_ty (o : obj) : vty :=
  match o with OCustomSpu => enum [(0, 0, t_i32); (1, 0, t_str)] | _ => t_str end.
Definition default_key (o : obj) : uval := match o with OCustomSpu => UE 0 zero | _ => empty end.
(** DeleteRequest: delete.rs:19-24 *)
Definition delete_ty (o : obj) : vty := struct [req (default_key o) (key_ty o); since 13 no t_bool].
(** UpdateRequest: update.rs:18-22; UpdateTopicAction: topic/update.rs:3-21;
    the other objects have a String as action (customspu/mod.rs:18 and so on;
    mirrors cannot be updated). *)
Definition update_ty (o : obj) : vty :=
  struct [req (default_key o) (key_ty o);
          match o with
          | OTopic => req (UE 0 (UT [zero])) (enum [(0, 0, struct [req zero t_u32]); (1, 0, struct [req empty t_str; req no t_bool])])
          | _ => req empty t_str
          end].

(** TypeBuffer::encode and its [Encoder]: the label, the length from version
    11 on, the contents.  metadata.rs:98-111, 154-169 *)
Definition typed_enc (v : Z) (o : obj) (t : vty) (x : uval) : bytes :=
  let buf := c_enc (vcodec v t) x in
  c_enc string_codec (label o)
  ++ (if dyn_obj <=? v then c_enc (int_codec U32) (wrap_u 32 (zlen buf)) else [])
  ++ buf.

(** The classic decoder of delete requests (classic.rs:311-370): five kinds of
    object. *)
Definition classic_delete_obj (l : bytes) : option obj :=
  find (fun o => bytes_eqb (label o) l) [OTopic; OTableFormat; OCustomSpu; OSpuGroup; OSmartModule].
(** Decoder of ObjectApiDeleteRequest, classic.rs:372-398: re-encoded at
    DYN_OBJ and labelled so. *)
Definition delete_dec (v : Z) (bs : bytes) : res (typed * bytes) :=
  if dyn_obj <=? v then typed_dec v bs
  else
    let* (l, r) := c_dec string_codec bs in
    match classic_delete_obj l with
    | None => Err InvalidData
    | Some o =>
        let* (x, r) := c_dec (vcodec v (delete_ty o)) r in
        Ok ({| tb_version := dyn_obj; tb_ty := l; tb_buf := c_enc (vcodec dyn_obj (delete_ty o)) x |}, r)
    end.
(** Decoder of ObjectApiUpdateRequest: derived, always the new protocol.
    update.rs:46-47 *)
Definition update_dec (v : Z) (bs : bytes) : res (typed * bytes) := typed_dec v bs.

(** TypeBuffer::downcast, metadata.rs:120-133. *)
Definition downcast (o : obj) (t : vty) (b : typed) : res (option uval) :=
  if bytes_eqb (tb_ty b) (label o)
  then let* (x, _) := c_dec (vcodec (tb_version b) t) (tb_buf b) in Ok (Some x)
  else Ok None.

Definition delete_received (v : Z) (o : obj) (bs : bytes) : res (option uval) :=
  let* (b, _) := delete_dec v bs in downcast o (delete_ty o) b.
Definition update_received (v : Z) (o : obj) (bs : bytes) : res (option uval) :=
  let* (b, _) := update_dec v bs in downcast o (update_ty o) b.

(** ** Watching *)

(** The version of the request header, and so of the answers:
    - list, create, delete, update: what lookup_version found (admin.rs:149-154);
    - watch: RequestMessage::new_request, always DEFAULT_API_VERSION
      (admin.rs:349, fluvio-protocol api/request.rs:69-74), whatever was found.
    lookup_version: the smaller of the two highest versions
    (fluvio-socket/src/versioned.rs:216-229). *)
Definition list_version (server_max : Z) : Z := Z.min common_version server_max.
Definition watch_version (server_max : Z) : Z := common_version.

(** A SmartModule in an answer: name, spec, status (objects/metadata.rs:19-34;
    SmartModuleStatus writes nothing); a change of it: MsgType and content
    (message/msg_type.rs:18-31).  A watch answer is an epoch, a list of
    changes, a list of objects (watch.rs:104-113). *)
Definition sm_object := struct [req empty t_str; req (UT [none; none; default_wasm]) smartmodule_spec; req unit_ t_unit].
Definition sm_watch_answer :=
  struct [req zero t_i64; req nil_ (VVec (struct [req tag0 (plain [0; 1]); req (UT [empty; UT [none; none; default_wasm]; unit_]) sm_object]));
          req nil_ (VVec sm_object)].
Definition partition_object :=
  struct [req empty t_str;
          req (UT [zero; nil_; none; none; any_compression; none; no; none]) partition_spec;
          req (UT [tag0; default_replica; zero; nil_; UI (-2); no; zero]) partition_status].
