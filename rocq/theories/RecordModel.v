(** Model of records, batches and record sets on the wire.
    Source: crates/fluvio-protocol/src/record/{data,batch}.rs

    Simplifications, for the whole file: those of WireModel.v; the [version]
    argument (ignored by this code); machine arithmetic as in a release build
    (wrap-around instead of overflow panics). *)
From Verif Require Export WireModel.

(** * Records *)

(** [RecordData], data.rs:206-246.  The decoder does not check that [len] bytes
    are there: it takes what there is.  A negative length is a huge [usize],
    for which [BytesMut::with_capacity] panics (so does, in practice, any
    length that cannot be allocated; this is not modelled). *)
Definition record_data_codec : codec bytes :=
  {| c_enc s := varint_encode (zlen s) ++ s;
     c_dec bs := let* (len, r) := varint_decode bs in
                 if len <? 0 then Err Panic else Ok (ztake len r, zdrop len r);
     c_size s := varint_size (zlen s) + zlen s |}.

(** [Record] with its [RecordHeader], data.rs:395-430, 432-438 *)
Record rec := mkRec {
  r_attr : Z;           (* preamble.attributes: i8 *)
  r_ts : Z;             (* preamble.timestamp_delta: i64, varint *)
  r_off : Z;            (* preamble.offset_delta: i64, varint *)
  r_key : option bytes;
  r_val : bytes;
  r_headers : Z;        (* i64, varint *)
}.

Definition body_tuple_codec : codec (Z * (Z * (Z * (option bytes * (bytes * Z))))) :=
  pair_codec i8_codec (pair_codec varint_codec (pair_codec varint_codec
    (pair_codec (option_codec record_data_codec) (pair_codec record_data_codec varint_codec)))).

(** The fields in the order in which data.rs:542-545 and 575-578 write and read
    them (RecordHeader: derive macro, declaration order). *)
Definition rec_tuple (r : rec) := (r_attr r, (r_ts r, (r_off r, (r_key r, (r_val r, r_headers r))))).
Definition rec_of_tuple (t : Z * (Z * (Z * (option bytes * (bytes * Z))))) : rec :=
  let '(a, (ts, (o, (k, (v, h))))) := t in mkRec a ts o k v h.

(** [Record] encode/decode/write_size, data.rs:525-582.  The length prefix is
    only used to check that enough bytes remain. *)
Definition rec_body (r : rec) : bytes := c_enc body_tuple_codec (rec_tuple r).
Definition rec_codec : codec rec :=
  {| c_enc r := varint_encode (zlen (rec_body r)) ++ rec_body r;
     c_dec bs := let* (len, r) := varint_decode bs in
                 if zlen r <? len then Err Eof
                 else let* (t, r') := c_dec body_tuple_codec r in Ok (rec_of_tuple t, r');
     c_size r := let inner := c_size body_tuple_codec (rec_tuple r) in varint_size inner + inner |}.

(** * CRC-32C (Castagnoli), as computed by the crc32c crate: reflected,
      polynomial 0x82F63B78, initial and final value 0xFFFFFFFF. *)
Definition crc_bit (c : Z) : Z :=
  if Z.land c 1 =? 1 then Z.lxor (Z.shiftr c 1) 0x82F63B78 else Z.shiftr c 1.
Definition crc_byte (c b : Z) : Z :=
  crc_bit (crc_bit (crc_bit (crc_bit (crc_bit (crc_bit (crc_bit (crc_bit (Z.lxor c b)))))))).
Definition crc32c (bs : bytes) : Z := Z.lxor (fold_left crc_byte bs 0xFFFFFFFF) 0xFFFFFFFF.

(** * Batches *)

(** [BatchHeader], batch.rs:453-467; default 491-506 *)
Record bheader := mkHdr {
  h_epoch : Z; h_magic : Z; h_crc : Z; h_attr : Z; h_last_delta : Z;
  h_first_ts : Z; h_max_ts : Z; h_pid : Z; h_pepoch : Z; h_seq : Z;
}.
Definition default_header : bheader := mkHdr (-1) 2 0 0 (-1) (-1) (-1) (-1) (-1) (-1).

(** [Batch<R>], batch.rs:86-93 *)
Record batch (R : Type) := mkBatch {
  b_base : Z; b_len : Z; b_hdr : bheader; b_schema : Z; b_recs : R;
}.
Arguments mkBatch {R}.
Arguments b_base {R}.
Arguments b_len {R}.
Arguments b_hdr {R}.
Arguments b_schema {R}.
Arguments b_recs {R}.

(** Constants, batch.rs:23-25, 71-74, 508-517 *)
Definition ATTR_SCHEMA_PRESENT : Z := 0x10.
Definition ATTR_COMPRESSION_CODEC_MASK : Z := 0x07.
Definition BATCH_PREAMBLE_SIZE : Z := 12.
Definition BATCH_HEADER_SIZE : Z := 45.
Definition BATCH_FILE_HEADER_SIZE : Z := BATCH_PREAMBLE_SIZE + BATCH_HEADER_SIZE.
Definition SCHEMA_ID_SIZE : Z := 4.

(** Attribute flags, batch.rs:469-489.  [compression as i16]: the codec number. *)
Definition has_schema (h : bheader) : bool := negb (Z.land (h_attr h) ATTR_SCHEMA_PRESENT =? 0).
Definition with_attr (h : bheader) (a : Z) : bheader :=
  mkHdr (h_epoch h) (h_magic h) (h_crc h) a (h_last_delta h) (h_first_ts h) (h_max_ts h) (h_pid h) (h_pepoch h) (h_seq h).
Definition set_compression (h : bheader) (c : Z) : bheader :=
  with_attr h (Z.lor (Z.land (h_attr h) (Z.lnot ATTR_COMPRESSION_CODEC_MASK)) (Z.land c ATTR_COMPRESSION_CODEC_MASK)).
(** [Compression::try_from], fluvio-compression/src/lib.rs:40-58 (all codecs
    enabled): 0..4, anything else is an error. *)
Definition get_compression (h : bheader) : res Z :=
  let c := Z.land (h_attr h) ATTR_COMPRESSION_CODEC_MASK in
  if c <=? 4 then Ok c else Err InvalidData.
Definition set_schema_flag (h : bheader) : bheader := with_attr h (Z.lor (h_attr h) ATTR_SCHEMA_PRESENT).
(** [Batch::set_schema_id], batch.rs:183-186 *)
Definition set_schema_id {R} (b : batch R) (sid : Z) : batch R :=
  mkBatch (b_base b) (b_len b) (set_schema_flag (b_hdr b)) sid (b_recs b).

(** The encoding of the records of a batch, [BatchRecords]: either in-memory
    records ([Vec<Record>]) or raw bytes taken as they are (batch.rs:37-62). *)
Definition memory_codec : codec (list rec) := vec_codec rec_codec.
Definition raw_codec : codec bytes :=
  {| c_enc s := s; c_dec bs := Ok (bs, []); c_size s := zlen s |}.

Section BatchCodec.
  Context {R : Type} (rc : codec R) (rdefault : R).

  (** [calc_batch_len], batch.rs:238-245 *)
  Definition calc_batch_len (b : batch R) : Z :=
    wrap_s 32 (BATCH_HEADER_SIZE + c_size rc (b_recs b) + (if has_schema (b_hdr b) then SCHEMA_ID_SIZE else 0)).

  (** The part of the batch the checksum covers, batch.rs:419-432 *)
  Definition batch_tail (b : batch R) : bytes :=
    let h := b_hdr b in
    be_enc 2 (h_attr h) ++ be_enc 4 (h_last_delta h) ++ be_enc 8 (h_first_ts h) ++ be_enc 8 (h_max_ts h)
    ++ be_enc 8 (h_pid h) ++ be_enc 2 (h_pepoch h) ++ be_enc 4 (h_seq h)
    ++ (if has_schema h then be_enc 4 (b_schema b) else [])
    ++ c_enc rc (b_recs b).

  (** [Batch::encode], batch.rs:406-437 *)
  Definition batch_enc (b : batch R) : bytes :=
    be_enc 8 (b_base b) ++ be_enc 4 (calc_batch_len b)
    ++ be_enc 4 (h_epoch (b_hdr b)) ++ be_enc 1 (h_magic (b_hdr b))
    ++ be_enc 4 (crc32c (batch_tail b)) ++ batch_tail b.

  (** [Batch::write_size], batch.rs:402-404: the schema id is not counted. *)
  Definition batch_size (b : batch R) : Z := BATCH_FILE_HEADER_SIZE + c_size rc (b_recs b).

  (** [decode_from_file_buf], batch.rs:161-172, with the derived header decoder *)
  Definition header_dec (bs : bytes) : res ((Z * Z * bheader) * bytes) :=
    let* (base, r) := c_dec i64_codec bs in
    let* (len, r) := c_dec i32_codec r in
    let* (epoch, r) := c_dec i32_codec r in
    let* (magic, r) := c_dec i8_codec r in
    let* (crc, r) := c_dec u32_codec r in
    let* (attr, r) := c_dec i16_codec r in
    let* (delta, r) := c_dec i32_codec r in
    let* (fts, r) := c_dec i64_codec r in
    let* (mts, r) := c_dec i64_codec r in
    let* (pid, r) := c_dec i64_codec r in
    let* (pep, r) := c_dec i16_codec r in
    let* (seq, r) := c_dec i32_codec r in
    Ok ((base, len, mkHdr epoch magic crc attr delta fts mts pid pep seq), r).

  (** Records part of [Batch::decode], batch.rs:384-391: the decoder works on
      [src.take(rec_len)]; what it leaves unread stays in [src].  The checksum
      is not verified. *)
  Definition records_dec (rec_len : Z) (r : bytes) : res (R * bytes) :=
    let buf := ztake rec_len r in
    match buf with
    | [] => Ok (rdefault, r)
    | _ => let* (rs, unread) := c_dec rc buf in Ok (rs, unread ++ zdrop rec_len r)
    end.

  (** [Batch::decode], batch.rs:364-395.  [batch_len as usize - ..] wraps. *)
  Definition batch_dec (bs : bytes) : res (batch R * bytes) :=
    let* ((base, len, h), r) := header_dec bs in
    if has_schema h then
      let* (sid, r) := c_dec u32_codec r in
      let* (rs, r) := records_dec (as_usize (as_usize len - BATCH_HEADER_SIZE - SCHEMA_ID_SIZE)) r in
      Ok (mkBatch base len h sid rs, r)
    else
      let* (rs, r) := records_dec (as_usize (as_usize len - BATCH_HEADER_SIZE)) r in
      Ok (mkBatch base len h 0 rs, r).

  Definition batch_codec : codec (batch R) :=
    {| c_enc := batch_enc; c_dec := batch_dec; c_size := batch_size |}.

  (** * Record sets *)

  (** [RecordSet::encode]/[write_size], data.rs:358-385 *)
  Definition rset_enc (l : list (batch R)) : bytes :=
    let out := flat_map batch_enc l in be_enc 4 (wrap_s 32 (zlen out)) ++ out.
  Definition rset_size (l : list (batch R)) : Z := fold_left (fun s b => s + batch_size b) l 4.

  (** The loop of [RecordSet::decode], data.rs:327-353: stop silently at the
      first batch that does not decode.  The flag tells whether the loop ended
      because the buffer was empty.  Each batch consumes bytes, so a fuel of
      the length of the buffer never runs out. *)
  Fixpoint rset_loop (fuel : nat) (buf : bytes) : res (list (batch R) * bool) :=
    match buf with
    | [] => Ok ([], true)
    | _ =>
        match fuel with
        | O => Err OutOfFuel
        | S f =>
            match batch_dec buf with
            | Ok (b, buf') => let* (l, fin) := rset_loop f buf' in Ok (b :: l, fin)
            | Err Panic => Err Panic
            | Err OutOfFuel => Err OutOfFuel
            | Err _ => Ok ([], false)
            end
        end
    end.

  (** [RecordSet::decode], data.rs:305-356.  The remaining input is known only
      when the loop consumed all of the announced bytes ([None]: somewhere
      inside the batch that failed to decode). *)
  Definition rset_dec (bs : bytes) : res (list (batch R) * option bytes) :=
    let* (len, r) := c_dec i32_codec bs in
    if zlen r <? as_usize len then Err Eof
    else
      let* (l, fin) := rset_loop (length r) (ztake (as_usize len) r) in
      Ok (l, if (fin : bool) then Some (zdrop (as_usize len) r) else None).
End BatchCodec.

(** [records_len], [get_last_offset], [computed_last_offset],
    batch.rs:141-151, 262-265; [RecordSet::{last_offset,total_records,
    base_offset}], data.rs:281-302 *)
Definition records_len {R} (b : batch R) : Z :=
  if h_last_delta (b_hdr b) <? 0 then 0 else h_last_delta (b_hdr b) + 1.
Definition get_last_offset {R} (b : batch R) : Z := b_base b + h_last_delta (b_hdr b).
Definition computed_last_offset {R} (b : batch R) : Z := b_base b + records_len b.
Definition rset_last_offset {R} (l : list (batch R)) : option Z :=
  match rev l with [] => None | b :: _ => Some (computed_last_offset b) end.
Definition rset_base_offset {R} (l : list (batch R)) : Z :=
  match l with [] => -1 | b :: _ => b_base b end.

(** Decoding a [Vec] keeps the elements decoded before an error in the vector
    (decoder.rs:61-75): the elements and the error, if any. *)
Fixpoint dec_partial {A} (dec : bytes -> res (A * bytes)) (n : nat) (bs : bytes) : list A * option err :=
  match n with
  | O => ([], None)
  | S m => match dec bs with
           | Ok (a, r) => let (l, e) := dec_partial dec m r in (a :: l, e)
           | Err e => ([], Some e)
           end
  end.

(** [Batch<RawRecords>::memory_records] for an uncompressed payload,
    batch.rs:307-339: end of input is swallowed, the records read so far are
    returned. *)
Definition memory_records (raw : bytes) : res (list rec) :=
  match c_dec i32_codec raw with
  | Err Eof => Ok []
  | Err e => Err e
  | Ok (len, r) =>
      if len <? 1 then Ok []
      else match dec_partial (c_dec rec_codec) (Z.to_nat len) r with
           | (l, None) => Ok l
           | (l, Some Eof) => Ok l
           | (_, Some e) => Err e
           end
  end.

(** [TryFrom<Batch<RawRecords>> for Batch], batch.rs:189-201 (uncompressed) *)
Definition to_memory (b : batch bytes) : res (batch (list rec)) :=
  let* rs := memory_records (b_recs b) in
  Ok (mkBatch (b_base b) (wrap_s 32 (BATCH_HEADER_SIZE + c_size memory_codec rs)) (b_hdr b) 0 rs).

(** [TryFrom<Batch> for Batch<RawRecords>], batch.rs:203-223 (uncompressed) *)
Definition to_raw (b : batch (list rec)) : batch bytes :=
  let raw := c_enc memory_codec (b_recs b) in
  mkBatch (b_base b) (wrap_s 32 (zlen raw)) (b_hdr b) (b_schema b) raw.

(** [set_offset_delta] on a record; [update_offset_deltas] and
    [From<records>], batch.rs:281-286, 342-362 *)
Definition set_off (o : Z) (r : rec) : rec := mkRec (r_attr r) (r_ts r) o (r_key r) (r_val r) (r_headers r).
Fixpoint number_from (i : Z) (l : list rec) : list rec :=
  match l with [] => [] | r :: t => set_off i r :: number_from (i + 1) t end.
Definition with_last_delta (h : bheader) (d : Z) : bheader :=
  mkHdr (h_epoch h) (h_magic h) (h_crc h) (h_attr h) d (h_first_ts h) (h_max_ts h) (h_pid h) (h_pepoch h) (h_seq h).
Definition batch_from (l : list rec) : batch (list rec) :=
  let rs := number_from 0 l in
  let b := mkBatch 0 0 default_header 0 rs in
  mkBatch 0 (calc_batch_len memory_codec b)
          (with_last_delta default_header (if 0 <? zlen rs then zlen rs - 1 else zlen rs)) 0 rs.
(** [Batch::add_records], batch.rs:275-279 *)
Definition add_records (b : batch (list rec)) (l : list rec) : batch (list rec) :=
  let rs := b_recs b ++ l in
  let b1 := mkBatch (b_base b) (b_len b) (b_hdr b) (b_schema b) rs in
  mkBatch (b_base b) (calc_batch_len memory_codec b1)
          (with_last_delta (b_hdr b) (zlen rs - 1)) (b_schema b) (number_from 0 rs).

(** * What a consumer sees: [ConsumerRecord], data.rs:585-660;
      [into_consumer_records_iter], batch.rs:288-304.  The offset is the batch
      base plus the position in the batch. *)
Record crec := mkCrec { cr_offset : Z; cr_partition : Z; cr_ts_base : Z; cr_rec : rec }.
Fixpoint consumer_records_from (base part ts i : Z) (l : list rec) : list crec :=
  match l with
  | [] => []
  | r :: t => mkCrec (base + i) part ts r :: consumer_records_from base part ts (i + 1) t
  end.
Definition into_consumer_records (b : batch (list rec)) (part : Z) : list crec :=
  consumer_records_from (b_base b) part (h_first_ts (b_hdr b)) 0 (b_recs b).
