(** The API of an SPU on the wire: which bytes a request is sent as, what the
    SPU reads from them, and what its answers look like.
    Source: crates/fluvio-spu-schema/src/{produce,fetch,server}, crates/
    fluvio-protocol/src/{api,codec,link}, crates/fluvio-spu/src/services/
    {public,internal}, crates/fluvio/src/offset.rs and consumer/mod.rs.

    Simplifications, for the whole file:
    - a [PlatformVersion] is its text (link/versions.rs:52-120); that the decoder
      refuses text that is not a version number is left out;
    - [PhantomData] fields write nothing and are left out;
    - answers to fetch and stream fetch requests are FileModel's. *)
From Verif Require Export MessageModel FileModel.
From Verif Require MuxModel ConsumerModel.

Definition t_data := VLeaf LData.

(** * Errors *)

(** ReplicaKey: fluvio-protocol record/replica.rs:8-12 *)
Definition replica_key := struct [req empty t_str; req zero t_u32].
Definition no_replica := UT [empty; zero].
(** SmartModuleKind of fluvio-protocol: link/smartmodule.rs:74-91 *)
Definition error_kind :=
  enum [(0, 0, t_unit); (1, 0, t_unit); (2, 15, t_unit); (3, 13, t_unit); (4, 16, t_unit); (5, 16, t_unit); (6, 17, t_unit)].
(** SmartModuleTransformRuntimeError: link/smartmodule.rs:10-23 *)
Definition transform_error :=
  struct [req empty t_str; req zero t_i64; req tag0 error_kind; req none (VOpt t_data); req empty t_data].
(** SmartModuleInitRuntimeError: link/smartmodule.rs:122-127 *)
Definition init_error := struct [req empty t_str].
(** RequestKind: api/mod.rs:163-169 *)
Definition request_kind := plain [0].
(** ErrorCode: link/error_code.rs:14-245.  The variants without data first,
    then those with data; the order does not matter. *)
Definition plain_errors : list Z :=
  [-1; 0; 1; 6; 10; 13; 56; 60; 61; 73;
   1000; 1001; 1002; 1003; 1004;
   2000; 2001; 2002; 2003; 2004; 2005; 2006; 2007; 2008;
   3000; 3001; 3002; 3004; 3005;
   5000; 5001; 5002; 6000; 7000; 7001; 7002; 8000; 8002; 9000; 10000;
   11001; 11002; 11003; 11004; 11005; 11006].
Definition str_field := always empty t_str.
Definition full_errors : list (Z * Z * vty) :=
  [(2, 0, struct [str_field]);                                        (* Other *)
   (7, 0, struct [always zero t_u64; always tag0 request_kind]);      (* RequestTimedOut *)
   (71, 0, struct [always zero t_i64; always zero t_i64]);            (* OffsetEvicted *)
   (72, 0, struct [always no_replica replica_key]);                   (* PartitionFull *)
   (3003, 0, struct [str_field]);                                     (* OffsetFlushRequestError *)
   (6001, 0, struct [str_field]);                                     (* SmartModuleNotFound *)
   (6002, 0, struct [str_field; always none (VOpt t_str)]);           (* SmartModuleInvalid *)
   (6003, 0, struct [str_field; str_field]);                          (* SmartModuleInvalidExports *)
   (6004, 0, struct [always (UT [empty; zero; tag0; none; empty]) transform_error]); (* SmartModuleRuntimeError *)
   (6005, 0, struct [str_field]);                                     (* SmartModuleChainInitError *)
   (6006, 0, struct [always (UT [empty]) init_error]);                (* SmartModuleInitError *)
   (6007, 0, struct [str_field]);                                     (* SmartModuleLookBackError *)
   (6008, 0, struct [always zero t_u64; always zero t_u64]);          (* SmartModuleMemoryLimitExceeded *)
   (8001, 0, struct [str_field]);                                     (* DerivedStreamNotFound *)
   (8003, 0, struct [str_field]);                                     (* DerivedStreamInvalid *)
   (10001, 0, struct [str_field]);                                    (* DeduplicationSmartModuleNameInvalid *)
   (12001, 0, struct [str_field; str_field]);                         (* SystemSpecDeletionAttempt *)
   (12002, 0, struct [str_field; str_field])].                        (* SystemSpecUpdatingAttempt *)
Definition error_code : vty :=
  VEnum I16 (variants (map (fun t => (t, 0, t_unit)) plain_errors ++ full_errors)).
Definition no_error := UE 0 unit_.
Definition not_leader := UE 3001 unit_.              (* PartitionNotLeader *)
Definition no_session := UE 3002 unit_.              (* FetchSessionNotFoud *)

(** * Requests *)

(** SpuServerRequest, server/api.rs:32-45 *)
Inductive api := AVersions | AProduce | AFetch | AFetchOffsets | AStreamFetch | AUpdateOffsets
  | AUpdateConsumer | ADeleteConsumer | AFetchConsumers | AStartMirror.
Definition all_apis := [AVersions; AProduce; AFetch; AFetchOffsets; AStreamFetch; AUpdateOffsets;
  AUpdateConsumer; ADeleteConsumer; AFetchConsumers; AStartMirror].
(** SpuServerApiKey, server/api_key.rs:9-30, and the API_KEY of each request:
    produce/request.rs:52, fetch/request.rs:52, fetch_offset.rs:35,
    stream_fetch.rs:107, update_offset.rs:25, consumer_offset.rs:17, 55, 89,
    mirror.rs:17, link/versions.rs:9 *)
Definition key (a : api) : Z :=
  match a with
  | AVersions => 18 | AProduce => 0 | AFetch => 1 | AFetchOffsets => 1002 | AStreamFetch => 1003 | AUpdateOffsets => 1005
  | AUpdateConsumer => 1006 | ADeleteConsumer => 1007 | AFetchConsumers => 1008 | AStartMirror => 2000
  end.
(** [TryFrom<u16> for SpuServerApiKey] (protocol-derive de.rs:284-382) *)
Definition by_key (k : Z) : option api := find (fun a => key a =? k) all_apis.

(** DEFAULT_API_VERSION: COMMON_VERSION (lib.rs:20) except for the handshake
    (versions.rs:10, 28) and offset updates (update_offset.rs:26); MIN_API_VERSION:
    0 for produce and fetch (produce/request.rs:54, fetch/request.rs:54), otherwise
    two before (api/mod.rs:42) *)
Definition common : Z := 25.
Definition newest (a : api) : Z := match a with AVersions => 2 | AUpdateOffsets => 0 | _ => common end.
Definition oldest (a : api) : Z := match a with AProduce | AFetch => 0 | _ => Z.max (newest a - 2) 0 end.

(** ApiVersionsRequest: link/versions.rs:16-24 *)
Definition versions_req := struct [since 1 empty t_str; since 1 empty t_str; since 1 empty t_str].
(** FetchPartition, FetchableTopic, ForgottenTopic, FetchRequest: fetch/request.rs:17-46, 60-100 *)
Definition fetch_partition :=
  struct [req zero t_u32; since 9 zero t_i32; req zero t_i64; since 5 zero t_i64; req zero t_i32].
Definition fetch_topic := struct [req empty t_str; req nil_ (VVec fetch_partition)].
Definition forgotten_topic := struct [since 7 empty t_str; since 7 nil_ (VVec t_i32)].
Definition fetch_req :=
  struct [req zero t_i32; req zero t_i32; since 3 zero t_i32; since 4 tag0 (plain [0; 1]);
          req nil_ (VVec fetch_topic); since 7 nil_ (VVec forgotten_topic)].
(** FetchOffsetPartition, FetchOffsetTopic, FetchOffsetsRequest: fetch_offset.rs:23-32, 55-68 *)
Definition offsets_topic := struct [req empty t_str; req nil_ (VVec (struct [req zero t_u32]))].
Definition offsets_req := struct [req nil_ (VVec offsets_topic); MessageModel.between 23 23 none (VOpt t_str)].
(** OffsetUpdate, UpdateOffsetsRequest: update_offset.rs:12-22 *)
Definition update_req := struct [req nil_ (VVec (struct [req zero t_i64; req zero t_u32]))].
(** UpdateConsumerOffsetRequest: consumer_offset.rs:10-14 *)
Definition update_consumer_req := struct [req zero t_i64; req zero t_u32].
(** DeleteConsumerOffsetRequest: consumer_offset.rs:34-38 *)
Definition delete_consumer_req := struct [req no_replica replica_key; req empty t_str].
(** FilterOpts, FetchConsumerOffsetsRequest: consumer_offset.rs:65-75 *)
Definition filter_opts := struct [req none (VOpt replica_key); req none (VOpt t_str)].
Definition fetch_consumers_req := struct [since 24 none (VOpt filter_opts)].
(** StartMirrorRequest: mirror.rs:10-14 *)
Definition start_mirror_req := struct [req empty t_str; req empty t_str].

Definition req_ty (a : api) : vty :=
  match a with
  | AVersions => versions_req
  | AProduce => t_unit                               (* has its own codec *)
  | AFetch => fetch_req
  | AFetchOffsets => offsets_req
  | AStreamFetch => stream_fetch
  | AUpdateOffsets => update_req
  | AUpdateConsumer => update_consumer_req
  | ADeleteConsumer => delete_consumer_req
  | AFetchConsumers => fetch_consumers_req
  | AStartMirror => start_mirror_req
  end.

(** ProduceRequest, TopicProduceData, PartitionProduceData: produce/request.rs:27-77.
    The timeout is a [Duration]: seconds and nanoseconds. *)
Record produce := mkProduce {
  p_txn : option bytes; p_committed : bool; p_timeout : Z * Z;
  p_topics : list (bytes * list (Z * list (batch bytes))); p_modules : list uval;
}.
(** [Duration::as_millis] *)
Definition millis (d : Z * Z) : Z := fst d * 1000 + snd d / 1000000.
(** [Duration::from_millis] *)
Definition of_millis (n : Z) : Z * Z := (n / 1000, (n mod 1000) * 1000000).
(** IsolationData: 153-173 *)
Definition acks (committed : bool) : Z := if committed then -1 else 1.
Definition of_acks (n : Z) : bool := n <? 0.
(** [TryFrom<Duration> for TimeoutData]: 179-190 *)
Definition timeout_data (d : Z * Z) : res Z := if millis d <? 2 ^ 31 then Ok (millis d) else Err InvalidData.
(** [TryFrom<TimeoutData> for Duration]: 192-205 *)
Definition of_timeout (n : Z) : res (Z * Z) := if n <? 0 then Err InvalidData else Ok (of_millis n).
(** The derived codecs of the topics, produce/request.rs:60, 70 *)
Definition ppdata_codec (v : Z) : codec (Z * list (batch bytes)) :=
  pair_codec (fld v 0 0 u32_codec) (fld v 0 [] set_codec).
Definition tpdata_codec (v : Z) : codec (bytes * list (Z * list (batch bytes))) :=
  pair_codec (fld v 0 [] string_codec) (fld v 0 [] (vec_codec (ppdata_codec v))).
Definition modules_codec (v : Z) : codec (list uval) := vec_codec (vcodec v invocation).
(** [Encoder for ProduceRequest], produce/request.rs:79-102: all fields at every
    version, whatever [#[fluvio(min_version = 3)]] says *)
Definition produce_size (v : Z) (p : produce) : Z :=
  c_size (option_codec string_codec) (p_txn p) + 2 + 4
  + c_size (vec_codec (tpdata_codec v)) (p_topics p) + c_size (modules_codec v) (p_modules p).
Definition produce_enc (v : Z) (p : produce) : res bytes :=
  let* t := timeout_data (p_timeout p) in
  Ok (c_enc (option_codec string_codec) (p_txn p) ++ be_enc 2 (acks (p_committed p)) ++ be_enc 4 t
      ++ c_enc (vec_codec (tpdata_codec v)) (p_topics p) ++ c_enc (modules_codec v) (p_modules p)).
(** [Decoder for ProduceRequest], 104-119 *)
Definition produce_dec (v : Z) (bs : bytes) : res (produce * bytes) :=
  let* (txn, r) := c_dec (option_codec string_codec) bs in
  let* (a, r) := c_dec i16_codec r in
  let* (n, r) := c_dec i32_codec r in
  let* t := of_timeout n in
  let* (topics, r) := c_dec (vec_codec (tpdata_codec v)) r in
  let* (modules, r) := c_dec (modules_codec v) r in
  Ok (mkProduce txn (of_acks a) t topics modules, r).

(** A request: a produce request, or one of another kind with its fields. *)
Inductive request := RProduce (p : produce) | ROther (a : api) (x : uval).
Definition api_of (r : request) : api := match r with RProduce _ => AProduce | ROther a _ => a end.
Definition req_enc (v : Z) (r : request) : res bytes :=
  match r with RProduce p => produce_enc v p | ROther a x => Ok (c_enc (vcodec v (req_ty a)) x) end.
Definition req_size (v : Z) (r : request) : Z :=
  match r with RProduce p => produce_size v p | ROther a x => c_size (vcodec v (req_ty a)) x end.
Definition req_dec (a : api) (v : Z) (bs : bytes) : res (request * bytes) :=
  match a with
  | AProduce => let* (p, r) := produce_dec v bs in Ok (RProduce p, r)
  | _ => let* (x, r) := c_dec (vcodec v (req_ty a)) bs in Ok (ROther a x, r)
  end.

(** [RequestMessage::encode], api/request.rs:145-172 *)
Definition message_enc (h : rheader) (r : request) : res bytes :=
  let* b := req_enc (rh_version h) r in Ok (c_enc (rheader_codec 0) h ++ b).
Definition message_size (h : rheader) (r : request) : Z :=
  c_size (rheader_codec 0) h + req_size (rh_version h) r.
(** [SpuServerRequest::decode_from], api/mod.rs:57-63, server/api.rs:73-103.
    What follows the request in the frame is not looked at. *)
Definition serve (bs : bytes) : res (rheader * request) :=
  let* (h, r) := c_dec (rheader_codec 0) bs in
  match by_key (rh_key h) with
  | None => Err InvalidData
  | Some a => let* (q, _) := req_dec a (rh_version h) r in Ok (h, q)
  end.

(** * A connection *)

(** [FluvioCodec::encode], codec/mod.rs:84-103, on the buffer of what was not
    flushed: the size comes first, and stays if the request cannot be encoded.
    [Framed::send] flushes after a successful [encode] only; so the bytes the SPU
    gets are those of this buffer up to the last success. *)
Definition put_message (buf : bytes) (m : rheader * request) : bytes * bool :=
  let size := be_enc 4 (wrap_s 32 (message_size (fst m) (snd m))) in
  match message_enc (fst m) (snd m) with
  | Ok b => (buf ++ size ++ b, true)
  | Err _ => (buf ++ size, false)
  end.
(** Everything written, and for each request whether it could be encoded. *)
Fixpoint put_all (buf : bytes) (l : list (rheader * request)) : bytes * list bool :=
  match l with
  | [] => (buf, [])
  | m :: t => let '(b, ok) := put_message buf m in let '(b', oks) := put_all b t in (b', ok :: oks)
  end.

(** The requests the SPU takes from the connection: the connection ends at the
    first frame that is not a request (services/public/mod.rs:203-209). *)
Fixpoint taken (frames : list bytes) : list (rheader * request) :=
  match frames with
  | [] => []
  | f :: t => match serve f with Ok q => q :: taken t | Err _ => [] end
  end.

(** * Versions *)

(** [handle_api_version_request], services/public/api_versions.rs:14-63.  The
    version of the client is empty in old clients. *)
Definition listed (old_client : bool) : list MuxModel.version_key :=
  [MuxModel.mkV (key AProduce) (oldest AProduce) (newest AProduce);
   MuxModel.mkV (key AFetch) (oldest AFetch) (newest AFetch);
   MuxModel.mkV (key AFetchOffsets) (newest AFetchOffsets) (newest AFetchOffsets);
   MuxModel.mkV (key AStreamFetch) 0 (if old_client then 15 else newest AStreamFetch);
   MuxModel.mkV (key AUpdateOffsets) 0 (newest AUpdateOffsets)].
(** [VersionedSerialSocket::new_request], fluvio-socket versioned.rs:351-364; the
    correlation id is set by the multiplexer.  Streams are opened with a version
    of their own (consumer/mod.rs:439-442, 453-456): CHAIN_SMARTMODULE_API - 1
    (stream_fetch.rs:47) if
    none is found. *)
Definition version_for (table : list MuxModel.version_key) (a : api) : Z :=
  MuxModel.header_version (match a with AStreamFetch => 17 | _ => newest a end)
    (MuxModel.lookup_version table (key a) (oldest a) (newest a)).

(** * Answers *)

(** ApiVersionsResponse, ApiVersionKey: link/versions.rs:38-50 *)
Definition versions_resp :=
  struct [req no_error error_code; req nil_ (VVec (struct [req zero t_i16; req zero t_i16; req zero t_i16]));
          req (US [48; 46; 48; 46; 48]) t_str].
(** PartitionProduceResponse, TopicProduceResponse, ProduceResponse: produce/response.rs:7-16, 40-69 *)
Definition produced_partition :=
  struct [req zero t_u32; req no_error error_code; req zero t_i64; since 2 zero t_i64; since 5 zero t_i64].
Definition produced_topic := struct [req empty t_str; req nil_ (VVec produced_partition)].
Definition produce_resp := struct [req nil_ (VVec produced_topic); since 1 zero t_i32].
(** FetchOffsetPartitionResponse, FetchOffsetTopicResponse, FetchOffsetsResponse:
    fetch_offset.rs:74-78, 96-118 *)
Definition offsets_partition := struct [req no_error error_code; req zero t_u32; req zero t_i64; req zero t_i64].
Definition offsets_resp := struct [req nil_ (VVec (struct [req empty t_str; req nil_ (VVec offsets_partition)]))].
(** OffsetUpdateStatus, UpdateOffsetsResponse: update_offset.rs:36-45 *)
Definition update_resp := struct [req nil_ (VVec (struct [req zero t_u32; req no_error error_code]))].
(** UpdateConsumerOffsetResponse, DeleteConsumerOffsetResponse,
    FetchConsumerOffsetsResponse, ConsumerOffset: consumer_offset.rs:28-32, 60-63, 94-106 *)
Definition update_consumer_resp := struct [req zero t_i64; req no_error error_code].
Definition delete_consumer_resp := struct [req no_error error_code].
Definition consumer_offset := struct [req empty t_str; req no_replica replica_key; req zero t_i64; req zero t_u64].
Definition fetch_consumers_resp := struct [req no_error error_code; req nil_ (VVec consumer_offset)].
(** StartMirrorResponse: mirror.rs:22-23 *)

(** The answers that are sent from memory ([call_service], fluvio-service). *)
Definition resp_ty (a : api) : option vty :=
  match a with
  | AVersions => Some versions_resp
  | AProduce => Some produce_resp
  | AFetchOffsets => Some offsets_resp
  | AUpdateOffsets => Some update_resp
  | AUpdateConsumer => Some update_consumer_resp
  | ADeleteConsumer => Some delete_consumer_resp
  | AFetchConsumers => Some fetch_consumers_resp
  | AStartMirror => Some t_unit
  | AFetch | AStreamFetch => None
  end.
(** [ResponseMessage::encode] and [decode_from], api/response.rs:35-50, 83-108 *)
Definition answer_codec (v : Z) (t : vty) : codec (Z * uval) := resp_codec (vcodec v t).

(** [ProduceResponse::find_partition_response], produce/response.rs:20-37: the
    first topic of that name only *)
Definition produced (topic : bytes) (index : Z) (l : list uval) : option uval :=
  match find (fun t => bytes_eqb (as_s (nth 0 (as_t t) empty)) topic) l with
  | Some t => find (fun p => as_i (nth 0 (as_t p) zero) =? index) (as_l (nth 1 (as_t t) nil_))
  | None => None
  end.

(** * Start offsets over the wire *)

(** What an SPU has for the partitions it leads: start and high watermark. *)
Definition led := bytes -> Z -> option (Z * Z).
(** [handle_offset_request], services/public/offset_request.rs:22-84, for a
    request without consumer id: the partition's error, index, start and end.
    ErrorCode::None is the default. *)
Definition offset_answer (s : led) (topic : bytes) (index : Z) : uval :=
  match s topic index with
  | Some (start, hw) => UT [no_error; UI index; UI start; UI hw]
  | None => UT [not_leader; UI index; zero; zero]
  end.
Definition handle_offsets (s : led) (q : list (bytes * list Z)) : uval :=
  UT [UL (map (fun t => UT [US (fst t); UL (map (offset_answer s (fst t)) (snd t))]) q)].
(** The fields of a request as the client builds it, fetch_offset.rs:42-52, and as
    the handler reads them *)
Definition offsets_of (q : list (bytes * list Z)) : uval :=
  UT [UL (map (fun t => UT [US (fst t); UL (map (fun i => UT [UI i]) (snd t))]) q); none].
Definition read_offsets (x : uval) : list (bytes * list Z) :=
  map (fun t => (as_s (nth 0 (as_t t) empty), map (fun p => as_i (nth 0 (as_t p) zero)) (as_l (nth 1 (as_t t) nil_))))
      (as_l (nth 0 (as_t x) nil_)).
(** [FetchOffsetsResponse::find_partition], fetch_offset.rs:81-93: the first
    matching partition of any topic of that name *)
Fixpoint find_partition (topic : bytes) (index : Z) (l : list uval) : option uval :=
  match l with
  | [] => None
  | t :: rest =>
      if bytes_eqb (as_s (nth 0 (as_t t) empty)) topic
      then match find (fun p => as_i (nth 1 (as_t p) zero) =? index) (as_l (nth 1 (as_t t) nil_)) with
           | Some p => Some p
           | None => find_partition topic index rest
           end
      else find_partition topic index rest
  end.
(** [fetch_offsets], fluvio/src/offset.rs:312-341: a client asks the SPU in state
    [s]; the request and the answer travel at version [v].  The error in the
    answer is not looked at. *)
Definition fetch_offsets (v : Z) (s : led) (topic : bytes) (index : Z) : res uval :=
  let* (q, _) := c_dec (vcodec v offsets_req) (c_enc (vcodec v offsets_req) (offsets_of [(topic, [index])])) in
  let* (a, _) := c_dec (vcodec v offsets_resp) (c_enc (vcodec v offsets_resp) (handle_offsets s (read_offsets q))) in
  match find_partition topic index (as_l (nth 0 (as_t a) nil_)) with
  | Some p => Ok p
  | None => Err InvalidData
  end.
(** [request_stream], consumer/mod.rs:420-434: the offset at which the stream is
    asked to start *)
Definition start_asked (v : Z) (s : led) (topic : bytes) (index : Z) (q : ConsumerModel.request) (stored : option Z) : res Z :=
  let* p := fetch_offsets v s topic index in
  ConsumerModel.resolve q (as_i (nth 2 (as_t p) zero)) (as_i (nth 3 (as_t p) zero)) (ConsumerModel.consumer_position stored).
