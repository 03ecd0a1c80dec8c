(** Messages whose records are sent straight from a file.
    Models /repo/crates/fluvio-protocol/src/store.rs, fluvio-protocol/src/api/
    {mod,request,response}.rs, fluvio-spu-schema/src/file.rs, fluvio-spu-schema/
    src/fetch/response.rs, fluvio-spu-schema/src/server/stream_fetch.rs,
    fluvio-spu/src/replication/follower/sync.rs, fluvio-spu/src/mirroring/
    {remote,home}/sync.rs and fluvio-socket/src/sink.rs. *)
From Verif Require Export RecordModel FrameModel VersionModel.

(** * Writing into a buffer and a list of store values *)

(** [AsyncFileSlice] (fluvio-future): a part of an open file. *)
Record fslice := mkFs { f_fd : Z; f_pos : Z; f_len : Z }.

(** [StoreValue], store.rs:14-17 *)
Inductive store_value := Bytes (b : bytes) | FileSlice (s : fslice).

(** What [file_encode] works on: the buffer [src] and the list [data]
    (store.rs:28-37).  [file_encode] fails only when [encode] of a field does;
    the fields used here never fail. *)
Definition wstate : Type := bytes * list store_value.
Definition writer := wstate -> wstate.
Definition put (bs : bytes) : writer := fun w => (fst w ++ bs, snd w).
Definition also (f g : writer) : writer := fun w => g (f w).
Infix ">>" := also (at level 50, left associativity).

(** [FileWrite for FileRecordSet], file.rs:83-100: the length, then everything
    buffered so far and the slice are moved to the list. *)
Definition file_records (s : fslice) : writer := fun w =>
  ([], snd w ++ [Bytes (fst w ++ be_enc 4 (wrap_s 32 (f_len s))); FileSlice s]).

(** [FileWrite for Vec<M>], store.rs:39-56 *)
Definition file_vec {A} (f : A -> writer) (l : list A) : writer :=
  put (be_enc 4 (wrap_s 32 (zlen l))) >> fun w => fold_left (fun w a => f a w) l w.

(** The files as they are while the message is sent. *)
Definition files := Z -> bytes.
Definition contents (st : files) (s : fslice) : bytes := ztake (f_len s) (zdrop (f_pos s) (st (f_fd s))).

(** [write_store_values], sink.rs:140-215: bytes are written as they are, an
    empty slice is skipped, any other one is copied from the file.  Both ways of
    copying (zero copy, [pread]) give the bytes the file has there: fewer than
    asked for only if the file ends. *)
Definition write_store_values (st : files) (l : list store_value) : bytes :=
  flat_map (fun x => match x with
                     | Bytes b => b
                     | FileSlice s => if f_len s =? 0 then [] else contents st s
                     end) l.

(** [encode_file_slices], sink.rs:119-137 *)
Definition encode_file_slices (st : files) (msg : writer) : bytes :=
  let '(buf, data) := msg ([], []) in write_store_values st (data ++ [Bytes buf]).

(** * Codecs of the record part *)

(** [Encoder for FileRecordSet], file.rs:52-81: only used for its size (a set
    that is not empty cannot be encoded into memory, none can be decoded). *)
Definition file_set_codec : codec fslice :=
  {| c_enc _ := be_enc 4 0; c_dec _ := Err Panic; c_size s := f_len s + 4 |}.

(** What a batch that does not decode leaves unread: the derived decoder reads
    one integer after the other and stops at the first one that is not complete
    (decoder.rs:130-300; the fields are those of [header_dec], and the schema id
    that may follow).  [batch.rs:364-395] with raw records fails nowhere else. *)
Definition header_widths : list Z := [8; 4; 4; 1; 4; 2; 4; 8; 8; 8; 2; 4].
Fixpoint unread (ws : list Z) (bs : bytes) : bytes :=
  match ws with
  | [] => bs
  | w :: t => if zlen bs <? w then bs else unread t (zdrop w bs)
  end.

(** [RecordSet<RawRecords>::decode], data.rs:305-356, with what it leaves unread
    of the announced bytes.  ([RecordModel.rset_dec] does not say what that is.)
    The batches are read from [src.take(len)], and the function returns [Ok] as
    soon as one does not decode. *)
Fixpoint set_loop (fuel : nat) (buf : bytes) : res (list (batch bytes) * bytes) :=
  match buf with
  | [] => Ok ([], [])
  | _ =>
      match fuel with
      | O => Err OutOfFuel
      | S f =>
          match batch_dec raw_codec [] buf with
          | Ok (b, buf') => let* (l, lo) := set_loop f buf' in Ok (b :: l, lo)
          | Err Panic => Err Panic
          | Err OutOfFuel => Err OutOfFuel
          | Err _ => Ok ([], unread header_widths buf)
          end
      end
  end.
Definition set_dec (bs : bytes) : res (list (batch bytes) * bytes) :=
  let* (len, r) := c_dec i32_codec bs in
  if zlen r <? as_usize len then Err Eof
  else
    let* (l, lo) := set_loop (length r) (ztake (as_usize len) r) in
    Ok (l, lo ++ zdrop (as_usize len) r).
(** [Encoder]/[Decoder] of [RecordSet<RawRecords>] *)
Definition set_codec : codec (list (batch bytes)) :=
  {| c_enc := rset_enc raw_codec; c_dec := set_dec; c_size := rset_size raw_codec |}.

(** * The messages *)

(** A field of a derived struct: present from version [min] on, otherwise the
    decoder leaves the default (fluvio-protocol-derive; see VersionModel). *)
Definition fld {A} (v min : Z) (d : A) (c : codec A) : codec A :=
  if min <=? v then c else {| c_enc _ := []; c_dec bs := Ok (d, bs); c_size _ := 0 |}.

Section Messages.
  (** [ErrorCode], link/error_code.rs:14-250: any type of errors with an encoding. *)
  Context {E : Type} (ec : Z -> codec E) (no_error : E).

  (** [FetchablePartitionResponse<R>], fetch/response.rs:54-79; [aborted] is a
      list of (producer id, first offset), 95-99 *)
  Record fpart (A : Type) := mkFpart {
    fp_index : Z; fp_error : E; fp_hw : Z; fp_next : Z; fp_start : Z;
    fp_aborted : option (list (Z * Z)); fp_records : A;
  }.
  Arguments mkFpart {A}.
  Arguments fp_index {A}.
  Arguments fp_error {A}.
  Arguments fp_hw {A}.
  Arguments fp_next {A}.
  Arguments fp_start {A}.
  Arguments fp_aborted {A}.
  Arguments fp_records {A}.

  Definition aborted_codec : codec (option (list (Z * Z))) :=
    option_codec (vec_codec (pair_codec i64_codec i64_codec)).

  (** The derived [Encoder]/[Decoder] of the struct, fetch/response.rs:54 *)
  Definition fpart_codec {A} (v : Z) (dflt : A) (rc : codec A) : codec (fpart A) :=
    via (fun t => let '(i, (e, (h, (n, (s, (a, r)))))) := t in mkFpart i e h n s a r)
        (fun p => (fp_index p, (fp_error p, (fp_hw p, (fp_next p, (fp_start p, (fp_aborted p, fp_records p)))))))
        (pair_codec (fld v 0 0 u32_codec) (pair_codec (fld v 0 no_error (ec v)) (pair_codec (fld v 0 0 i64_codec)
          (pair_codec (fld v 11 0 i64_codec) (pair_codec (fld v 0 0 i64_codec)
            (pair_codec (fld v 0 None aborted_codec) (fld v 0 dflt rc))))))).

  (** [FileWrite for FilePartitionResponse], fetch/response.rs:137-159 *)
  Definition file_fpart (v : Z) (p : fpart fslice) : writer :=
    put (be_enc 4 (fp_index p)) >> put (c_enc (ec v) (fp_error p)) >> put (be_enc 8 (fp_hw p))
    >> (if 11 <=? v then put (be_enc 8 (fp_next p)) else put [])
    >> put (be_enc 8 (fp_start p)) >> put (c_enc aborted_codec (fp_aborted p))
    >> file_records (fp_records p).

  (** [StreamFetchResponse<R>], stream_fetch.rs:118-123 *)
  Record stream_resp (A : Type) := mkStream { sr_topic : bytes; sr_id : Z; sr_part : fpart A }.
  Arguments mkStream {A}.
  Arguments sr_topic {A}.
  Arguments sr_id {A}.
  Arguments sr_part {A}.
  Definition no_fpart {A} (dflt : A) : fpart A := mkFpart 0 no_error 0 0 0 None dflt.
  Definition stream_codec {A} (v : Z) (dflt : A) (rc : codec A) : codec (stream_resp A) :=
    via (fun t => let '(n, (i, p)) := t in mkStream n i p)
        (fun s => (sr_topic s, (sr_id s, sr_part s)))
        (pair_codec (fld v 0 [] string_codec) (pair_codec (fld v 0 0 u32_codec)
          (fld v 0 (no_fpart dflt) (fpart_codec v dflt rc)))).
  (** [FileWrite for StreamFetchResponse<FileRecordSet>], stream_fetch.rs:145-160 *)
  Definition file_stream (v : Z) (s : stream_resp fslice) : writer :=
    put (c_enc string_codec (sr_topic s)) >> put (be_enc 4 (sr_id s)) >> file_fpart v (sr_part s).

  (** [FetchableTopicResponse<R>], [FetchResponse<R>], fetch/response.rs:13-23,
      45-52 ([PhantomData] has no bytes) *)
  Record ftopic (A : Type) := mkFtopic { ft_name : bytes; ft_parts : list (fpart A) }.
  Arguments mkFtopic {A}.
  Arguments ft_name {A}.
  Arguments ft_parts {A}.
  Record fetch_resp (A : Type) := mkFetch {
    fr_throttle : Z; fr_error : E; fr_session : Z; fr_topics : list (ftopic A);
  }.
  Arguments mkFetch {A}.
  Arguments fr_throttle {A}.
  Arguments fr_error {A}.
  Arguments fr_session {A}.
  Arguments fr_topics {A}.
  Definition ftopic_codec {A} (v : Z) (dflt : A) (rc : codec A) : codec (ftopic A) :=
    via (fun t => mkFtopic (fst t) (snd t)) (fun t => (ft_name t, ft_parts t))
        (pair_codec (fld v 0 [] string_codec) (fld v 0 [] (vec_codec (fpart_codec v dflt rc)))).
  Definition fetch_codec {A} (v : Z) (dflt : A) (rc : codec A) : codec (fetch_resp A) :=
    via (fun t => let '(h, (e, (s, l))) := t in mkFetch h e s l)
        (fun f => (fr_throttle f, (fr_error f, (fr_session f, fr_topics f))))
        (pair_codec (fld v 0 0 i32_codec) (pair_codec (fld v 0 no_error (ec v)) (pair_codec (fld v 0 0 i32_codec)
          (fld v 0 [] (vec_codec (ftopic_codec v dflt rc)))))).
  (** [FileWrite for FileTopicResponse], [FileFetchResponse],
      fetch/response.rs:160-194 *)
  Definition file_ftopic (v : Z) (t : ftopic fslice) : writer :=
    put (c_enc string_codec (ft_name t)) >> file_vec (file_fpart v) (ft_parts t).
  Definition file_fetch (v : Z) (f : fetch_resp fslice) : writer :=
    put (be_enc 4 (fr_throttle f)) >> put (c_enc (ec v) (fr_error f)) >> put (be_enc 4 (fr_session f))
    >> file_vec (file_ftopic v) (fr_topics f).

  (** [PeerFetchablePartitionResponse<R>], [PeerFetchableTopicResponse<R>] and
      [SyncRequest<R>] (a struct with the topics only), follower/sync.rs:31-37,
      81-89, 104-114 *)
  Record ppart (A : Type) := mkPpart { pp_index : Z; pp_error : E; pp_hw : Z; pp_leo : Z; pp_records : A }.
  Arguments mkPpart {A}.
  Arguments pp_index {A}.
  Arguments pp_error {A}.
  Arguments pp_hw {A}.
  Arguments pp_leo {A}.
  Arguments pp_records {A}.
  Record ptopic (A : Type) := mkPtopic { pt_name : bytes; pt_parts : list (ppart A) }.
  Arguments mkPtopic {A}.
  Arguments pt_name {A}.
  Arguments pt_parts {A}.
  Definition ppart_codec {A} (v : Z) (dflt : A) (rc : codec A) : codec (ppart A) :=
    via (fun t => let '(i, (e, (h, (l, r)))) := t in mkPpart i e h l r)
        (fun p => (pp_index p, (pp_error p, (pp_hw p, (pp_leo p, pp_records p)))))
        (pair_codec (fld v 0 0 u32_codec) (pair_codec (fld v 0 no_error (ec v)) (pair_codec (fld v 0 0 i64_codec)
          (pair_codec (fld v 0 0 i64_codec) (fld v 0 dflt rc))))).
  Definition ptopic_codec {A} (v : Z) (dflt : A) (rc : codec A) : codec (ptopic A) :=
    via (fun t => mkPtopic (fst t) (snd t)) (fun t => (pt_name t, pt_parts t))
        (pair_codec (fld v 0 [] string_codec) (fld v 0 [] (vec_codec (ppart_codec v dflt rc)))).
  Definition sync_codec {A} (v : Z) (dflt : A) (rc : codec A) : codec (list (ptopic A)) :=
    fld v 0 [] (vec_codec (ptopic_codec v dflt rc)).
  (** [FileWrite] for the three, follower/sync.rs:68-79, 129-160 *)
  Definition file_ppart (v : Z) (p : ppart fslice) : writer :=
    put (be_enc 4 (pp_index p)) >> put (c_enc (ec v) (pp_error p)) >> put (be_enc 8 (pp_hw p))
    >> put (be_enc 8 (pp_leo p)) >> file_records (pp_records p).
  Definition file_ptopic (v : Z) (t : ptopic fslice) : writer :=
    put (c_enc string_codec (pt_name t)) >> file_vec (file_ppart v) (pt_parts t).
  Definition file_sync (v : Z) (l : list (ptopic fslice)) : writer := file_vec (file_ptopic v) l.
End Messages.
Arguments mkFpart {E A}.
Arguments fp_index {E A}.
Arguments fp_error {E A}.
Arguments fp_hw {E A}.
Arguments fp_next {E A}.
Arguments fp_start {E A}.
Arguments fp_aborted {E A}.
Arguments fp_records {E A}.
Arguments mkStream {E A}.
Arguments sr_topic {E A}.
Arguments sr_id {E A}.
Arguments sr_part {E A}.
Arguments mkFtopic {E A}.
Arguments ft_name {E A}.
Arguments ft_parts {E A}.
Arguments mkFetch {E A}.
Arguments fr_throttle {E A}.
Arguments fr_error {E A}.
Arguments fr_session {E A}.
Arguments fr_topics {E A}.
Arguments mkPpart {E A}.
Arguments pp_index {E A}.
Arguments pp_error {E A}.
Arguments pp_hw {E A}.
Arguments pp_leo {E A}.
Arguments pp_records {E A}.
Arguments mkPtopic {E A}.
Arguments pt_name {E A}.
Arguments pt_parts {E A}.

(** [MirrorPartitionSyncRequest<R>], mirroring/remote/sync.rs:24-32, with its
    [FileWrite] 58-71; the request of the home (mirroring/home/sync.rs:24-68) is
    the same message in a wrapper. *)
Record mirror_req (A : Type) := mkMirrorReq { mq_hw : Z; mq_leo : Z; mq_records : A }.
Arguments mkMirrorReq {A}.
Arguments mq_hw {A}.
Arguments mq_leo {A}.
Arguments mq_records {A}.
Definition mirror_codec {A} (v : Z) (dflt : A) (rc : codec A) : codec (mirror_req A) :=
  via (fun t => let '(h, (l, r)) := t in mkMirrorReq h l r)
      (fun m => (mq_hw m, (mq_leo m, mq_records m)))
      (pair_codec (fld v 0 0 i64_codec) (pair_codec (fld v 0 0 i64_codec) (fld v 0 dflt rc))).
Definition file_mirror (m : mirror_req fslice) : writer :=
  put (be_enc 8 (mq_hw m)) >> put (be_enc 8 (mq_leo m)) >> file_records (mq_records m).

(** * Requests and responses *)

(** [ResponseMessage<P>], api/response.rs:35-50, 83-108: the correlation id, then the
    response. *)
Definition resp_codec {A} (c : codec A) : codec (Z * A) := pair_codec i32_codec c.
(** [FileWrite for ResponseMessage<P>], store.rs:58-86 *)
Definition file_resp {A} (size : A -> Z) (body : A -> writer) (corr : Z) (x : A) : writer :=
  put (be_enc 4 (wrap_s 32 (4 + size x))) >> put (be_enc 4 corr) >> body x.

(** [RequestHeader], api/mod.rs:92-98 *)
Record rheader := mkRheader { rh_key : Z; rh_version : Z; rh_corr : Z; rh_client : bytes }.
Definition rheader_codec (v : Z) : codec rheader :=
  via (fun t => let '(k, (n, (c, s))) := t in mkRheader k n c s)
      (fun h => (rh_key h, (rh_version h, (rh_corr h, rh_client h))))
      (pair_codec (fld v 0 0 u16_codec) (pair_codec (fld v 0 0 i16_codec) (pair_codec (fld v 0 0 i32_codec)
        (fld v 0 [] string_codec)))).
(** [RequestMessage<R>], api/request.rs:131-172: the header, then the request in
    the version of the header; [decode_from], api/mod.rs:55-63, reads the header
    in version 0. *)
Definition request_enc {A} (c : Z -> codec A) (v : Z) (h : rheader) (x : A) : bytes :=
  c_enc (rheader_codec v) h ++ c_enc (c (rh_version h)) x.
Definition request_size {A} (size : Z -> A -> Z) (v : Z) (h : rheader) (x : A) : Z :=
  c_size (rheader_codec v) h + size (rh_version h) x.
Definition request_dec {A} (c : Z -> codec A) (bs : bytes) : res ((rheader * A) * bytes) :=
  let* (h, r) := c_dec (rheader_codec 0) bs in
  let* (x, r) := c_dec (c (rh_version h)) r in
  Ok ((h, x), r).
(** [FileWrite for RequestMessage<R>], store.rs:88-112.  All callers pass the
    version of the header ([update_from_leaders], leader/connection.rs:156-160;
    mirroring/remote/controller.rs:475, mirroring/home/connection.rs:356). *)
Definition file_request {A} (size : Z -> A -> Z) (body : Z -> A -> writer) (h : rheader) (x : A) : writer :=
  let v := rh_version h in
  put (be_enc 4 (wrap_s 32 (request_size size v h x))) >> put (c_enc (rheader_codec v) h) >> body v x.

(** * The messages as the SPU sends them *)

Section Sent.
  Context {E : Type} (ec : Z -> codec E) (no_error : E).
  Definition no_slice : fslice := mkFs 0 0 0.

  (** The response to a stream fetch, services/public/stream_fetch.rs:440-456,
      and to a fetch, fetch_handler.rs:46 *)
  Definition send_stream (st : files) (v corr : Z) (x : stream_resp (E := E) fslice) : bytes :=
    encode_file_slices st
      (file_resp (c_size (stream_codec ec no_error v no_slice file_set_codec)) (file_stream ec v) corr x).
  Definition send_fetch (st : files) (v corr : Z) (x : fetch_resp (E := E) fslice) : bytes :=
    encode_file_slices st
      (file_resp (c_size (fetch_codec ec no_error v no_slice file_set_codec)) (file_fetch ec v) corr x).
  (** What a leader sends to a follower, and a mirror to its peer *)
  Definition send_sync (st : files) (h : rheader) (x : list (ptopic (E := E) fslice)) : bytes :=
    encode_file_slices st
      (file_request (fun v => c_size (sync_codec ec no_error v no_slice file_set_codec)) (file_sync ec) h x).
  Definition send_mirror (st : files) (h : rheader) (x : mirror_req fslice) : bytes :=
    encode_file_slices st
      (file_request (fun v => c_size (mirror_codec v no_slice file_set_codec)) (fun _ => file_mirror) h x).

  (** [update_from_leaders], leader/connection.rs:122-163: one topic with one
      partition for every replica of which there is something to send
      (replica_state.rs:253-303). *)
  Definition sync_of {A} (l : list (bytes * ppart (E := E) A)) : list (ptopic (E := E) A) :=
    map (fun r => mkPtopic (fst r) [snd r]) l.
End Sent.
