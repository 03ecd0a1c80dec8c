(** C91: compression does not show.  [K]: the algorithms, [sound K]: what they
    compress they uncompress to the same bytes.  [packed K m p]: [p] is the batch
    [m] with its records compressed by the algorithm its header names.  Topics:
    [None] for any algorithm; 0 is no compression.  Theorems only. *)
From Verif Require Import WireSpec RecordSpec StorageSpec ProduceSpec StorageClaims CompressModel CompressSpec CompressClaims.

(** The algorithm of a producer: what the topic asks for; if the topic leaves it
    open, what the configuration says, or none.  The producer is not started if
    both name one and they differ, and only then. *)
Theorem C91_choice : forall topic config,
  match determine topic config with
  | Some a => (topic = Some a /\ (config = None \/ config = Some a)) \/ (topic = None /\ (config = Some a \/ config = None /\ a = 0))
  | None => exists t k, topic = Some t /\ config = Some k /\ t <> k
  end.
Proof. exact choice. Qed.
Print Assumptions C91_choice.
Example C91_choice_ex : determine (Some 1) None = Some 1 /\ determine (Some 1) (Some 0) = None /\ determine None (Some 3) = Some 3.
Proof. auto. Qed.
(** What a producer that was started sends is never refused for its
    compression; *)
Theorem C91_accepted : forall K c now dedup ld topic config a ms ps, l_compression ld = Some topic -> determine topic config = Some a -> 0 <= a <= 4 ->
  Forall2 (packed K) (map (mb_batch_with a) ms) ps ->
  p_code (snd (produce_partition c now (fun l => Some l) dedup (Some ld) ps)) <> CompressionError.
Proof. exact accepted. Qed.
Print Assumptions C91_accepted.
Example C91_accepted_ex :
  p_code (snd (produce_partition demo_c 0 (fun l => Some l) (fun l => Some l) (Some (mkLeader demo_r 1 (Some (Some 1)))) [demo_p 1])) = NoError
  /\ p_code (snd (produce_partition demo_c 0 (fun l => Some l) (fun l => Some l) (Some (mkLeader demo_r 1 (Some (Some 1)))) [demo_p 0])) = CompressionError.
Proof. vm_compute. auto. Qed.
(** nor is it when SmartModules change it before: *)
Theorem C91_accepted_modules : forall K c now is dedup ld topic l, l_compression ld = Some topic -> Forall (named topic) l ->
  p_code (snd (produce_partition c now (apply_modules K is) dedup (Some ld) l)) <> CompressionError.
Proof. exact accepted_modules. Qed.
Print Assumptions C91_accepted_modules.
(** the batch made of what they return is compressed as the topic asks, and so is
    the one made by the SmartModule of the topic. *)
Theorem C91_modules_codec : forall K is l l' topic, Forall (named topic) l -> apply_modules K is l = Some l' -> total_records l' <> 0 -> Forall (named topic) l'.
Proof. exact modules_named. Qed.
Print Assumptions C91_modules_codec.
Theorem C91_topic_codec : forall K is l l' topic, Forall (named topic) l -> apply_topic K is l = Some l' -> Forall (fun b => 0 < records_len b) l' -> Forall (named topic) l'.
Proof. exact topic_named. Qed.
Print Assumptions C91_topic_codec.
Example C91_modules_ex : match apply_modules marking [keep_hi] [demo_p 4; demo_p 4] with
  | Some [p] => (get_compression (b_hdr p), records_len p, match open_batch marking p with Ok m => map r_val (b_recs m) | Err _ => [] end)
  | _ => (Err Eof, 0, []) end = (Ok 4, 4, [[104; 105]; [104; 105]]).
Proof. vm_compute. reflexivity. Qed.
(** The records of a batch are those that were put in, whatever the algorithm; *)
Theorem C91_same_records : forall K m p, sound K -> mem_batch_ok m -> packed K m p ->
  exists m', open_batch K p = Ok m' /\ to_memory (to_raw m) = Ok m' /\ b_base m' = b_base m /\ b_hdr m' = b_hdr m /\ b_recs m' = b_recs m.
Proof. exact same_records. Qed.
Print Assumptions C91_same_records.
(** a consumer of batches in the log, from offset [o] on, is shown the same as if
    they were not compressed. *)
Theorem C91_consumer : forall K o ms ps, sound K -> Forall mem_batch_ok ms -> Forall2 (packed K) ms ps -> Forall raw_batch_ok ps ->
  0 <= o -> o + total ps < 2 ^ 63 -> zlen (flat_map renc (number o ps)) < 2 ^ 31 -> zlen (flat_map renc (number o (map to_raw ms))) < 2 ^ 31 ->
  forall s, shown_items K s (flat_map renc (number o ps)) = items s (Raw (flat_map renc (number o (map to_raw ms)))).
Proof. exact consumer_same. Qed.
Print Assumptions C91_consumer.
Example C91_consumer_ex : sound marking /\ Forall2 (packed marking) [demo_m 1; demo_m 0; demo_m 4] [demo_p 1; demo_p 0; demo_p 4]
  /\ Forall raw_batch_ok [demo_p 1; demo_p 0; demo_p 4] /\ (forall a, 0 <= a <= 4 -> mem_batch_ok (demo_m a)).
Proof. exact (conj marking_sound (conj demo_packed (conj demo_p_ok demo_m_ok))). Qed.
(** SmartModules return the same, with the same errors, for produce requests, *)
Theorem C91_modules_request : forall K is mx ms ps, sound K -> Forall mem_batch_ok ms -> Forall2 (packed K) ms ps ->
  option_map (fun x => (fst (fst (fst x)), snd (fst (fst x)), snd x)) (engine_reading (from_request K) is mx ps out0 0) = engine_from is mx (map to_raw ms) out0.
Proof. exact modules_request. Qed.
Print Assumptions C91_modules_request.
(** for consumers, *)
Theorem C91_modules_log : forall K o is mx ms ps, sound K -> Forall mem_batch_ok ms -> Forall2 (packed K) ms ps -> Forall raw_batch_ok ps ->
  0 <= o -> o + total ps < 2 ^ 63 -> zlen (flat_map renc (number o ps)) < 2 ^ 31 -> zlen (flat_map renc (number o (map to_raw ms))) < 2 ^ 31 ->
  Forall (fun m => has_schema (b_hdr m) = false) ms ->
  option_map (fun x => (fst (fst (fst x)), snd (fst (fst x)), snd x)) (engine_reading (from_file K) is mx (receive (flat_map renc (number o ps))) out0 0)
  = engine_from is mx (receive (flat_map renc (number o (map to_raw ms)))) out0.
Proof. exact modules_log. Qed.
Print Assumptions C91_modules_log.
(** and are shown the same when they look back. *)
Theorem C91_lookback : forall K o ms ps, sound K -> Forall mem_batch_ok ms -> Forall2 (packed K) ms ps -> Forall raw_batch_ok ps ->
  0 <= o -> o + total ps < 2 ^ 63 -> zlen (flat_map renc (number o ps)) < 2 ^ 31 -> zlen (flat_map renc (number o (map to_raw ms))) < 2 ^ 31 ->
  Forall (fun m => has_schema (b_hdr m) = false) ms ->
  past_items K (receive (flat_map renc (number o ps))) = items_of (receive (flat_map renc (number o (map to_raw ms)))).
Proof. exact lookback_log. Qed.
Print Assumptions C91_lookback.
(** What they return is what can be read from the batch made of it. *)
Theorem C91_modules_records : forall K is l p, sound K -> apply_modules K is l = Some [p] -> exists is' a comp,
  engine_reading (from_request K) is (2 ^ 64 - 1) l out0 0 = Some (is', a, comp, None)
  /\ (records_ok (q_recs a) -> exists m, open_batch K p = Ok m /\ b_recs m = q_recs a).
Proof. exact modules_records. Qed.
Print Assumptions C91_modules_records.
(** The findings: the SPU stores a batch that cannot be uncompressed; consumers
    get an error for it, SmartModules stop at it for ever, and so does look-back. *)
Theorem C91_garbled_refuted : exists K c ld p, sound K /\ config_ok c /\ reached c (l_store ld) /\ raw_batch_ok p /\ named (Some 1) p /\ l_compression ld = Some (Some 1)
  /\ p_code (snd (produce_partition c 0 (fun l => Some l) (fun l => Some l) (Some ld) [p])) = NoError
  /\ shown_items K 0 (renc (with_base p (get_leo (l_store ld)))) = [ErrItem]
  /\ (forall is mx, engine_reading (from_file K) is mx (receive (renc (with_base p (get_leo (l_store ld))))) out0 0 = None)
  /\ exists e, past_items K (receive (renc (with_base p (get_leo (l_store ld))))) = Fail e.
Proof. exact garbled_refuted. Qed.
Print Assumptions C91_garbled_refuted.
(** They also stop at a batch with a schema id, which consumers can read. *)
Theorem C91_schema_refuted : exists K m p, sound K /\ mem_batch_ok m /\ packed K m p /\ raw_batch_ok p /\ named (Some 0) p
  /\ map (fun i => match i with Rec c => Some (r_val (cr_rec c)) | ErrItem => None end) (shown_items K 0 (renc (with_base p 0))) = [Some [104; 105]; Some [106]]
  /\ forall is mx, engine_reading (from_file K) is mx (receive (renc (with_base p 0))) out0 0 = None.
Proof. exact schema_refuted. Qed.
Print Assumptions C91_schema_refuted.
