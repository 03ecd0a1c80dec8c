(** Model of the way of a topic's settings: from the flags of the CLI or a
    configuration file into the specification of the topic, through the checks of
    the SC, into its partitions, and into the storage and the deduplication of an
    SPU; and of the CLI's command that adds partitions.

    Source (paths below /repo/crates):
    - fluvio-cli/src/client/topic/create.rs, add_partition.rs;
    - fluvio-controlplane-metadata/src/topic/config.rs, spec.rs,
      partition/spec.rs;
    - fluvio-sc/src/services/public_api/topic/create.rs, stores/topic/store.rs;
    - fluvio-controlplane/src/replica.rs; fluvio-storage/src/config.rs;
    - fluvio-spu/src/config/spu_config.rs, smartengine/mod.rs.

    Left out: how flags and files are parsed (clap, serde, humantime, bytesize: a
    duration is seconds and nanoseconds, a size is a number of bytes), mirror
    topics, and names, whose checks are a parameter. *)
From Coq Require Import ZArith List Bool.
Import ListNotations.
From Verif Require Import WireModel StorageModel.
Open Scope Z_scope.

(** * What is asked for *)

(** [std::time::Duration] *)
Record duration := mkDur { d_secs : Z; d_nanos : Z }.
Definition as_millis (d : duration) : Z := d_secs d * 1000 + d_nanos d / 1000000.

(** [CompressionAlgorithm], topic/spec.rs:990-1011 *)
Inductive algorithm := NoCompression | Gzip | Snappy | Lz4 | AnyCompression | Zstd.

(** [Deduplication], topic/deduplication.rs:12-66; names and texts are numbers,
    and a text that is a numeral is its number *)
Record dedup := mkDedup { x_count : Z; x_age : option duration; x_uses : Z; x_with : list (Z * Z) }.

(** [ReplicaSpec] without mirrors, topic/spec.rs:196-212 *)
Inductive rspec := Assigned (maps : list (Z * list Z)) | Computed (partitions factor : Z) (ignore_rack : bool).

(** [CreateTopicOpt] and [TopicConfigOpt], create.rs:44-145, 307-347; [f_maps]:
    the contents of the file of --replica-assignment; [f_replication] is an i16 *)
Record flags := mkFlags {
  f_partitions : Z; f_replication : Z; f_ignore_rack : bool; f_maps : option (list (Z * list Z));
  f_retention : option duration; f_segment : option Z; f_max : option Z;
  f_compression : option algorithm; f_dedup : bool; f_count : Z; f_age : duration; f_system : bool }.

(** [TopicConfig], topic/config.rs:17-135 *)
Record file := mkFile {
  y_count : option Z; y_replication : option Z; y_ignore_rack : option bool; y_maps : option (list (Z * list Z));
  y_max : option Z; y_retention : option duration; y_segment : option Z;
  y_compression : option algorithm; y_dedup : option dedup }.

(** [TopicSpec], topic/spec.rs:18-42, with [SegmentBasedPolicy] and
    [TopicStorageConfig], 966-988 *)
Record tspec := mkTspec {
  t_replicas : rspec; t_retention : option Z; t_storage : option (option Z * option Z);
  t_compression : algorithm; t_dedup : option dedup; t_system : bool }.

(** [DEFAULT_DEDUP_FILTER], create.rs:42 *)
Definition default_filter : Z := 0.

(** [as u32] *)
Definition to_u32 (z : Z) : Z := wrap_u 32 z.
(** [d.as_secs() as u32] *)
Definition retention_of (d : duration) : Z := to_u32 (d_secs d).

(** create.rs:264-276 and topic/config.rs:171-172, 198-203 *)
Definition storage_of (segment max : option Z) : option (option Z * option Z) :=
  match segment, max with
  | None, None => None
  | _, _ => Some (option_map to_u32 segment, max)
  end.

(** [construct] without --config, --mirror and --mirror-apply, create.rs:161-279,
    and [create_deduplication], 291-304 *)
Definition spec_of_flags (f : flags) : tspec :=
  mkTspec
    (match f_maps f with Some m => Assigned m | None => Computed (f_partitions f) (to_u32 (f_replication f)) (f_ignore_rack f) end)
    (option_map retention_of (f_retention f))
    (storage_of (f_segment f) (f_max f))
    (match f_compression f with Some a => a | None => AnyCompression end)
    (if f_dedup f then Some (mkDedup (f_count f) (Some (f_age f)) default_filter []) else None)
    (f_system f).

(** [From<TopicConfig> for TopicSpec], topic/config.rs:169-209 *)
Definition spec_of_file (y : file) : tspec :=
  mkTspec
    (match y_maps y with
     | Some m => Assigned m
     | None => Computed (match y_count y with Some n => n | None => 1 end)
                        (match y_replication y with Some n => n | None => 1 end)
                        (match y_ignore_rack y with Some b => b | None => false end)
     end)
    (option_map retention_of (y_retention y))
    (storage_of (y_segment y) (y_max y))
    (match y_compression y with Some a => a | None => AnyCompression end)
    (y_dedup y)
    false.

(** what a file has to have for serde to accept it: [non_zero_count],
    topic/deduplication.rs:68-80 *)
Definition file_accepted (y : file) : bool :=
  match y_dedup y with Some d => negb (x_count d =? 0) | None => true end.

(** * The checks of the SC *)

(** fluvio-types/src/defaults.rs:41, 45, 47, 49, 51 *)
Definition SPU_LOG_SEGMENT_MAX_BYTES : Z := 1073741824.
Definition SPU_PARTITION_MAX_BYTES_MIN : Z := 2048.
Definition SPU_LOG_LOG_SEGMENT_MAX_BYTE_MIN : Z := 1024.
Definition STORAGE_RETENTION_SECONDS : Z := 604800.
Definition STORAGE_RETENTION_SECONDS_MIN : Z := 10.

Inductive invalid := ShortRetention | SmallSegment | SmallPartition | PartitionBelowSegment.

(** [validate_config], topic/spec.rs:157-193 *)
Definition validate_config (t : tspec) : option invalid :=
  if match t_retention t with Some r => r <? STORAGE_RETENTION_SECONDS_MIN | None => false end then Some ShortRetention
  else
    match t_storage t with
    | None => None
    | Some (segment, max) =>
        if match segment with Some s => s <? SPU_LOG_LOG_SEGMENT_MAX_BYTE_MIN | None => false end then Some SmallSegment
        else
          match max with
          | None => None
          | Some m =>
              if m <? SPU_PARTITION_MAX_BYTES_MIN then Some SmallPartition
              else if m <? match segment with Some s => s | None => SPU_LOG_SEGMENT_MAX_BYTES end then Some PartitionBelowSegment
              else None
          end
    end.

(** [valid_partition], [valid_replication_factor], topic/spec.rs:340-355, in
    [validate_computed_topic_parameters], controllers/topics/policy.rs:46-56 *)
Definition computed_ok (r : rspec) : bool :=
  match r with Computed p f _ => negb (p =? 0) && negb (f =? 0) | Assigned _ => true end.

(** [validate_topic_request], services/public_api/topic/create.rs:79-190;
    [named]: the checks of the name, [modules]: the names of the SmartModules the
    SC has, [mapped]: the checks of an assignment (C31) *)
Definition admitted (named : bool) (modules : list Z) (mapped : list (Z * list Z) -> bool) (t : tspec) : bool :=
  named
  && match validate_config t with None => true | Some _ => false end
  && match t_dedup t with Some d => existsb (Z.eqb (x_uses d)) modules | None => true end
  && match t_replicas t with Assigned m => mapped m | r => computed_ok r end.

(** [handle_create_topics_request], create.rs:64-77: the topics of the SC
    afterwards, and whether it was a success; the waiting for partitions that
    follows (196-281) is in WaitModel *)
Definition create (admit : tspec -> bool) (dry_run : bool) (key : Z) (t : tspec) (topics : list (Z * tspec)) : list (Z * tspec) * bool :=
  if admit t && negb (existsb (fun e => fst e =? key) topics) then
    (if dry_run then topics else topics ++ [(key, t)], true)
  else (topics, false).

(** * Partitions and replicas *)

(** [PartitionSpec], partition/spec.rs:17-36, and [from_replicas], 48-66 *)
Record pspec := mkPspec {
  p_replicas : list Z; p_retention : option Z; p_storage : option (option Z * option Z);
  p_compression : algorithm; p_dedup : option dedup; p_system : bool }.
Definition from_replicas (replicas : list Z) (t : tspec) : pspec :=
  mkPspec replicas (t_retention t) (t_storage t) (t_compression t) (t_dedup t) (t_system t).

(** [create_new_partitions], stores/topic/store.rs:35-62, and that its result is
    added to the partitions of the topic *)
Definition create_partitions (t : tspec) (map : list (Z * list Z)) (have : list (Z * pspec)) : list (Z * pspec) :=
  have ++ flat_map (fun e => if existsb (fun h => fst h =? fst e) have then [] else [(fst e, from_replicas (snd e) t)]) map.

(** of [Replica], controlplane/src/replica.rs:16-27, what it has of the settings:
    [From<PartitionMetadata>], 50-74 *)
Record replica_msg := mkReplica { r_retention : option Z; r_store : option (option Z * option Z); r_compression : algorithm; r_dedup : option dedup }.
Definition replica_of (p : pspec) : replica_msg := mkReplica (p_retention p) (p_storage p) (p_compression p) (p_dedup p).

(** * The SPU *)

(** [From<&SpuConfig> for ReplicaConfig], spu_config.rs:166-179: what the SPU is
    configured with; retention, size of a partition and of a request are not *)
Definition spu_config (segment interval entries : Z) : config :=
  mkConfig segment 33554432 interval entries 107374182400 STORAGE_RETENTION_SECONDS.

(** [update_from_replica], storage/src/config.rs:68-93 *)
Definition update_from_replica (r : replica_msg) (c : config) : config :=
  mkConfig
    (match r_store r with Some (Some s, _) => s | _ => c_seg_max c end)
    (c_req_max c) (c_interval c) (c_entries c)
    (match r_store r with Some (_, Some m) => m | _ => c_part_max c end)
    (match r_retention r with Some x => x | None => c_retention c end).

(** the parameters of [dedup_to_invocation], smartengine/mod.rs:184-206: names of
    parameters are numbers; a [BTreeMap] *)
Definition p_count : Z := 0.
Definition p_age : Z := 1.
Fixpoint get (k : Z) (m : list (Z * Z)) : option Z :=
  match m with [] => None | (k', v) :: r => if k =? k' then Some v else get k r end.
Definition insert (k v : Z) (m : list (Z * Z)) : list (Z * Z) := (k, v) :: filter (fun e => negb (k =? fst e)) m.
Record invocation := mkInvocation { i_module : Z; i_last : Z; i_age : option duration; i_params : list (Z * Z) }.
Definition dedup_to_invocation (d : dedup) : invocation :=
  let m := insert p_count (x_count d) [] in
  let m := match x_age d with Some a => insert p_age (as_millis a) m | None => m end in
  mkInvocation (x_uses d) (x_count d) (x_age d) (fold_left (fun m e => insert (fst e) (snd e) m) (x_with d) m).

(** * What the CLI shows *)

(** [retention_secs] of a topic, topic/spec.rs:151-155, in the list of topics,
    fluvio-cli/src/client/topic/list.rs:119-121 *)
Definition shown_retention (t : tspec) : Z := match t_retention t with Some r => r | None => STORAGE_RETENTION_SECONDS end.

(** * Adding partitions *)

(** a message of the watch: the topics that changed, and how many partitions each
    has; [None]: the time is up *)
Definition watched := option (list (Z * Z)).

(** [add_and_watch_new_partitions], add_partition.rs:60-98: for a topic with
    [before] partitions; [count] is an i32. The number of partitions shown as
    those of the topic. That the request failed is ignored, and so is which topic
    changed. In 64 bits [before + count as usize] wraps *)
Fixpoint add_partition (before count : Z) (l : list watched) : option Z :=
  match l with
  | [] => None
  | None :: _ => None
  | Some changes :: r =>
      match find (fun c => snd c =? wrap_u 64 (before + wrap_u 64 count)) changes with
      | Some c => Some (snd c)
      | None => add_partition before count r
      end
  end.

(** [handle_add_partition], public_api/topic/update/add_partition.rs:36-66: the
    number of partitions the topic is to have; the CLI sends [count as u32] *)
Definition partitions_after (partitions count : Z) : Z := wrap_u 32 (partitions + to_u32 count).
