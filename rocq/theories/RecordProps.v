(** C04, C05, C06, C08, C09: records, batches and record sets. *)
From Verif Require Import Base WireModel WireSpec RecordModel RecordSpec WireProofs RecordProofs.

(** C04.  A record is read back exactly, in sync, its size is announced
    correctly, and a record cut anywhere is an end-of-input error. *)
Theorem C04_record_roundtrip :
  roundtrips rec_codec rec_ok /\ size_exact rec_codec rec_ok /\ emits_bytes rec_codec rec_ok
  /\ truncation_yields (eq Eof) rec_codec rec_ok.
Proof. exact (conj (proj1 rec_lawful) (conj (proj1 (proj2 rec_lawful)) (conj (proj2 (proj2 rec_lawful)) (rec_trunc (eq Eof) eq_refl)))). Qed.
Print Assumptions C04_record_roundtrip.
Definition keyed_rec : rec := mkRec 0 (-7) 3 (Some [107; 101; 121]) [1; 2; 255] 0.
Example C04_ex : rec_ok keyed_rec /\ c_enc rec_codec keyed_rec = [26; 0; 13; 6; 1; 6; 107; 101; 121; 6; 1; 2; 255; 0].
Proof.
  split; [|vm_compute; reflexivity].
  repeat split; try (vm_compute; intuition congruence); repeat constructor; vm_compute; intuition congruence.
Qed.

(** C05.  A batch of records arrives with its header, records and, if present,
    schema id; the following bytes stay. *)
Theorem C05_batch_roundtrip : forall b rest, mem_batch_ok b ->
  exists b', batch_dec memory_codec [] (batch_enc memory_codec b ++ rest) = Ok (b', rest)
             /\ arrived (batch_enc memory_codec b) b b'.
Proof. exact mem_batch_roundtrip. Qed.
Print Assumptions C05_batch_roundtrip.

(** C05, the same for a batch whose payload is opaque (possibly compressed). *)
Theorem C05_raw_batch_roundtrip : forall b rest, raw_batch_ok b ->
  exists b', batch_dec raw_codec [] (batch_enc raw_codec b ++ rest) = Ok (b', rest)
             /\ arrived (batch_enc raw_codec b) b b'.
Proof. exact raw_batch_roundtrip. Qed.
Print Assumptions C05_raw_batch_roundtrip.

(** C05.  The announced size is right without a schema and exactly 4 too small
    with one. *)
Theorem C05_batch_size : forall b, mem_batch_ok b ->
  zlen (batch_enc memory_codec b) = batch_size memory_codec b + (if has_schema (b_hdr b) then 4 else 0).
Proof. exact mem_batch_size. Qed.
Print Assumptions C05_batch_size.
Theorem C05_raw_batch_size : forall b, raw_batch_ok b ->
  zlen (batch_enc raw_codec b) = batch_size raw_codec b + (if has_schema (b_hdr b) then 4 else 0).
Proof. exact raw_batch_size. Qed.
Print Assumptions C05_raw_batch_size.

(** C05, the finding: the size announced for a batch with a schema is wrong. *)
Theorem C05_batch_size_refuted : exists b, mem_batch_ok b /\ batch_size memory_codec b <> zlen (batch_enc memory_codec b).
Proof. exact batch_size_refuted. Qed.
Print Assumptions C05_batch_size_refuted.
Example C05_ex : mem_batch_ok (demo_batch 5) /\ has_schema (b_hdr (demo_batch 5)) = false
  /\ mem_batch_ok demo_schema_batch /\ has_schema (b_hdr demo_schema_batch) = true /\ raw_batch_ok (to_raw (demo_batch 5)).
Proof.
  split; [exact demo_batch_ok|]. split; [reflexivity|]. split; [exact demo_schema_batch_ok|]. split; [reflexivity|].
  exact (to_raw_ok _ demo_batch_ok).
Qed.

(** C06.  A complete record set arrives completely. *)
Theorem C06_set_roundtrip : forall l rest, Forall mem_batch_ok l -> zlen (flat_map (batch_enc memory_codec) l) < 2 ^ 31 ->
  exists l', rset_dec memory_codec [] (rset_enc memory_codec l ++ rest) = Ok (l', Some rest)
    /\ Forall2 (fun b b' => arrived (batch_enc memory_codec b) b b') l l'.
Proof. exact mem_set_roundtrip. Qed.
Print Assumptions C06_set_roundtrip.
Theorem C06_raw_set_roundtrip : forall l rest, Forall raw_batch_ok l -> zlen (flat_map (batch_enc raw_codec) l) < 2 ^ 31 ->
  exists l', rset_dec raw_codec [] (rset_enc raw_codec l ++ rest) = Ok (l', Some rest)
    /\ Forall2 (fun b b' => arrived (batch_enc raw_codec b) b b') l l'.
Proof. exact raw_set_roundtrip. Qed.
Print Assumptions C06_raw_set_roundtrip.

(** C06.  A set cut after [k] bytes and announced as [k] bytes long decodes to
    the whole batches that fit, in order, possibly followed by one batch that
    has the header of the next one and no records. *)
Theorem C06_cut_set : forall l k rest, Forall mem_batch_ok l ->
  0 <= k <= zlen (flat_map (batch_enc memory_codec) l) -> k < 2 ^ 31 ->
  exists n whole tail o,
    rset_dec memory_codec [] (be_enc 4 k ++ ztake k (flat_map (batch_enc memory_codec) l) ++ rest) = Ok (whole ++ tail, o)
    /\ (n <= length l)%nat
    /\ Forall2 (fun b b' => arrived (batch_enc memory_codec b) b b') (firstn n l) whole
    /\ zlen (flat_map (batch_enc memory_codec) (firstn n l)) <= k
    /\ (k < zlen (flat_map (batch_enc memory_codec) (firstn (S n) l)) \/ n = length l)
    /\ (k = zlen (flat_map (batch_enc memory_codec) (firstn n l)) -> tail = [] /\ o = Some rest)
    /\ (tail = [] \/ exists b b', nth_error l n = Some b /\ tail = [b']
                      /\ arrived_head (batch_enc memory_codec b) b b' /\ b_recs b' = []).
Proof. exact mem_set_cut_arrived. Qed.
Print Assumptions C06_cut_set.

(** C06, the same for raw batches (the fetch path): the last batch may carry a
    prefix of its payload. *)
Theorem C06_cut_raw_set : forall l k rest, Forall raw_batch_ok l ->
  0 <= k <= zlen (flat_map (batch_enc raw_codec) l) -> k < 2 ^ 31 ->
  exists n whole tail o,
    rset_dec raw_codec [] (be_enc 4 k ++ ztake k (flat_map (batch_enc raw_codec) l) ++ rest) = Ok (whole ++ tail, o)
    /\ (n <= length l)%nat
    /\ Forall2 (fun b b' => arrived (batch_enc raw_codec b) b b') (firstn n l) whole
    /\ zlen (flat_map (batch_enc raw_codec) (firstn n l)) <= k
    /\ (k < zlen (flat_map (batch_enc raw_codec) (firstn (S n) l)) \/ n = length l)
    /\ (k = zlen (flat_map (batch_enc raw_codec) (firstn n l)) -> tail = [] /\ o = Some rest)
    /\ (tail = [] \/ exists b b', nth_error l n = Some b /\ tail = [b']
                      /\ arrived_head (batch_enc raw_codec b) b b' /\ prefix (b_recs b') (b_recs b)).
Proof. exact raw_set_cut_arrived. Qed.
Print Assumptions C06_cut_raw_set.

(** C06, end to end: the records a client decodes from a cut set are a prefix,
    in order and with their offsets, of the records sent; all of them when
    nothing is cut. *)
Theorem C06_cut_records : forall l k rest, Forall mem_batch_ok l ->
  0 <= k <= zlen (flat_map (batch_enc raw_codec) (map to_raw l)) -> k < 2 ^ 31 ->
  exists got o mem,
    rset_dec raw_codec [] (be_enc 4 k ++ ztake k (flat_map (batch_enc raw_codec) (map to_raw l)) ++ rest) = Ok (got, o)
    /\ all_ok to_memory got = Ok mem
    /\ prefix (flat_map log_records mem) (flat_map log_records l)
    /\ (k = zlen (flat_map (batch_enc raw_codec) (map to_raw l)) -> flat_map log_records mem = flat_map log_records l).
Proof. exact raw_records_cut. Qed.
Print Assumptions C06_cut_records.
Example C06_ex : Forall mem_batch_ok [demo_batch 5; demo_batch 5]
  /\ 0 <= 100 <= zlen (flat_map (batch_enc memory_codec) [demo_batch 5; demo_batch 5])
  /\ 0 <= 100 <= zlen (flat_map (batch_enc raw_codec) (map to_raw [demo_batch 5; demo_batch 5])).
Proof. split; [repeat constructor; apply demo_batch_ok|]. vm_compute. intuition congruence. Qed.

(** C06, the finding: the offset the client continues from ([rset_last_offset])
    lies beyond records that were cut off, so they are never delivered. *)
Theorem C06_cut_raw_loses_refuted : exists l k got o mem next off r,
  Forall mem_batch_ok l /\ 0 <= k <= zlen (flat_map (batch_enc raw_codec) (map to_raw l))
  /\ rset_dec raw_codec [] (be_enc 4 k ++ ztake k (flat_map (batch_enc raw_codec) (map to_raw l))) = Ok (got, o)
  /\ all_ok to_memory got = Ok mem
  /\ rset_last_offset got = Some next
  /\ In (off, r) (flat_map log_records l) /\ off < next
  /\ ~ In off (map fst (flat_map log_records mem)).
Proof. exact raw_cut_loses_refuted. Qed.
Print Assumptions C06_cut_raw_loses_refuted.
Theorem C06_cut_memory_loses_refuted : exists l k got o next off r,
  Forall mem_batch_ok l /\ 0 <= k <= zlen (flat_map (batch_enc memory_codec) l)
  /\ rset_dec memory_codec [] (be_enc 4 k ++ ztake k (flat_map (batch_enc memory_codec) l)) = Ok (got, o)
  /\ rset_last_offset got = Some next
  /\ In (off, r) (flat_map log_records l) /\ off < next
  /\ ~ In off (map fst (flat_map log_records got)).
Proof. exact mem_cut_loses_refuted. Qed.
Print Assumptions C06_cut_memory_loses_refuted.

(** C08.  Compression and schema flags do not disturb each other and stay
    representable on the wire. *)
Theorem C08_flags_independent : forall h, header_ok h ->
  (forall c, 0 <= c <= 4 ->
     get_compression (set_compression h c) = Ok c /\ has_schema (set_compression h c) = has_schema h
     /\ header_ok (set_compression h c))
  /\ get_compression (set_schema_flag h) = get_compression h /\ has_schema (set_schema_flag h) = true
  /\ header_ok (set_schema_flag h).
Proof. exact flags_independent. Qed.
Print Assumptions C08_flags_independent.
Theorem C08_other_bits_kept : forall h n, 0 <= n ->
  (forall c, 3 <= n -> Z.testbit (h_attr (set_compression h c)) n = Z.testbit (h_attr h) n)
  /\ (n <> 4 -> Z.testbit (h_attr (set_schema_flag h)) n = Z.testbit (h_attr h) n).
Proof. exact other_bits_kept. Qed.
Print Assumptions C08_other_bits_kept.
Theorem C08_schema_id_roundtrip : forall b sid rest, mem_batch_ok b -> in_u 32 sid ->
  exists b', batch_dec memory_codec [] (batch_enc memory_codec (set_schema_id b sid) ++ rest) = Ok (b', rest)
    /\ b_schema b' = sid /\ has_schema (b_hdr b') = true /\ get_compression (b_hdr b') = get_compression (b_hdr b)
    /\ b_recs b' = b_recs b.
Proof. exact schema_id_roundtrip. Qed.
Print Assumptions C08_schema_id_roundtrip.
Example C08_ex : header_ok (set_schema_flag (set_compression default_header 3))
  /\ h_attr (set_schema_flag (set_compression default_header 3)) = 19.
Proof. split; [repeat split; vm_compute; congruence|reflexivity]. Qed.

(** C09.  A consumer is shown the log offset of every record of a batch whose
    deltas are consecutive, as they are in every batch a client builds. *)
Theorem C09_consumer_offsets : forall b p, numbered (b_recs b) ->
  map (fun c => (cr_offset c, cr_rec c)) (into_consumer_records b p) = log_records b.
Proof. exact consumer_sees_log. Qed.
Print Assumptions C09_consumer_offsets.
Theorem C09_built_batches_numbered : forall b l,
  numbered (b_recs (batch_from l)) /\ numbered (b_recs (add_records b l)).
Proof. exact (fun b l => conj (built_numbered l) (added_numbered b l)). Qed.
Print Assumptions C09_built_batches_numbered.
(** and announce as many records as they hold, which are the records given, in
    order (up to the offset deltas). *)
Theorem C09_built_batches_counted : forall b l, l <> [] ->
  records_len (batch_from l) = zlen l /\ records_len (add_records b l) = zlen (b_recs b) + zlen l
  /\ map (set_off 0) (b_recs (batch_from l)) = map (set_off 0) l
  /\ map (set_off 0) (b_recs (add_records b l)) = map (set_off 0) (b_recs b ++ l).
Proof. exact built_counted. Qed.
Print Assumptions C09_built_batches_counted.
Example C09_ex : numbered (b_recs (demo_batch 5)) /\ length (b_recs (demo_batch 5)) = 2%nat.
Proof. split; reflexivity. Qed.

(** C09, the finding: in a batch some records were filtered out of, consumers
    are shown offsets that are not those of the log. *)
Theorem C09_consumer_offsets_refuted : exists b p, map r_off (b_recs b) = [1] /\ records_len b = 2 /\
  map (fun c => (cr_offset c, cr_rec c)) (into_consumer_records b p) <> log_records b.
Proof. exact filtered_refuted. Qed.
Print Assumptions C09_consumer_offsets_refuted.
