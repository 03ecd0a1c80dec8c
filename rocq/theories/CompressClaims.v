(** Compressed batches. *)
From Verif Require Import ListFacts WireSpec WireProofs RecordSpec RecordProofs StorageSpec StorageProofs ReplicaProofs ClusterProofs StorageClaims ReplicationClaims ProduceSpec ProduceClaims ProducerSpec ProducerProofs StreamSpec StreamClaims EngineSpec CompressModel CompressSpec.

Lemma marking_sound : sound marking.
Proof.
  intros a s z HA HB E. unfold marking, pack, unpack in *. inversion E; subst z. rewrite Z.eqb_refl. split; [|reflexivity].
  constructor; [unfold is_byte; lia|exact HB].
Qed.

Lemma whole_records rs : records_ok rs -> memory_records (c_enc memory_codec rs) = Ok rs.
Proof.
  intros H. destruct (memory_records_cut rs (zlen (c_enc memory_codec rs)) H) as (l & E & _ & F & _).
  rewrite ztake_all in E by lia. rewrite E. f_equal. apply F. lia.
Qed.
Lemma codec_range h a : get_compression h = Ok a -> 0 <= a <= 4.
Proof.
  unfold get_compression. intros E. destruct (_ <=? 4) eqn:L; [|discriminate]. inversion E; subst. apply Z.leb_le in L. split; [|exact L].
  apply Z.land_nonneg. right. discriminate.
Qed.

(** * The choice of the producer *)
Lemma choice topic config :
  match determine topic config with
  | Some a => (topic = Some a /\ (config = None \/ config = Some a)) \/ (topic = None /\ (config = Some a \/ config = None /\ a = 0))
  | None => exists t k, topic = Some t /\ config = Some k /\ t <> k
  end.
Proof.
  unfold determine. destruct topic as [t|]; [|destruct config; right; auto]. destruct config as [k|]; [|left; auto].
  destruct (k =? t) eqn:E; [apply Z.eqb_eq in E; subst; left; auto|]. apply Z.eqb_neq in E. exists t, k. repeat split; congruence.
Qed.

Lemma named_valid topic l : Forall (named topic) l -> validate_records l topic = true.
Proof.
  intros F. unfold validate_records. apply forallb_forall. intros b IN. rewrite Forall_forall in F. destruct (F _ IN) as (a & E & T).
  unfold codec_of in E. rewrite E. destruct topic; [apply Z.eqb_eq; exact T|reflexivity].
Qed.
Lemma validated_never c now pre dedup ld l topic : l_compression ld = Some topic ->
  (forall l', pre l = Some l' -> total_records l' <> 0 -> Forall (named topic) l') ->
  p_code (snd (produce_partition c now pre dedup (Some ld) l)) <> CompressionError.
Proof.
  intros LC N. unfold produce_partition. destruct (pre l) as [l'|] eqn:P; [|discriminate]. destruct (total_records l' =? 0) eqn:T; [discriminate|].
  apply Z.eqb_neq in T. specialize (N _ eq_refl T). unfold handle_partition. rewrite LC, (named_valid _ _ N).
  unfold write_record_set. destruct (dedup l') as [l2|]; [|discriminate]. destruct (total_records l2 =? 0); [discriminate|].
  destruct (write_recordset c now (l_store ld) l2 (l_isr ld =? 1)) as [r [e|]]; [|discriminate]. destruct e; discriminate.
Qed.
Lemma packed_named K topic config a m p : determine topic config = Some a -> 0 <= a <= 4 -> packed K (mb_batch_with a m) p -> named topic p.
Proof.
  intros D R P. unfold packed, compress_batch in P. cbn [mb_batch_with b_hdr] in P. rewrite compression_set in P by assumption. cbn [bind] in P.
  destruct (compress K a _) as [z|]; [|discriminate]. cbn [bind] in P. inversion P; subst p. exists a. unfold codec_of. cbn [b_hdr].
  split; [apply compression_set; assumption|]. pose proof (choice topic config) as C. rewrite D in C. destruct topic as [t|]; [|exact I].
  destruct C as [(E & _)|(E & _)]; [congruence|discriminate].
Qed.
Lemma accepted K c now dedup ld topic config a ms ps : l_compression ld = Some topic -> determine topic config = Some a -> 0 <= a <= 4 ->
  Forall2 (packed K) (map (mb_batch_with a) ms) ps ->
  p_code (snd (produce_partition c now (fun l => Some l) dedup (Some ld) ps)) <> CompressionError.
Proof.
  intros LC D R F. apply (validated_never _ _ _ _ _ _ topic LC). intros l' E _. inversion E; subst l'. clear E.
  revert ps F. induction ms as [|m ms IH]; intros ps F; inversion F; subst; [constructor|]. constructor; [eapply packed_named; eassumption|]. apply IH; assumption.
Qed.

(** * SmartModules: the algorithm of the result *)
Definition fits (topic : option Z) (comp : Z) : Prop := 0 <= comp <= 4 /\ match topic with None => True | Some t => comp = t end.
Lemma engine_codec read topic mx l : forall is a comp is' a' comp' e,
  Forall (named topic) l -> fits topic comp \/ (q_base a = -1 /\ q_delta a = -1) ->
  engine_reading read is mx l a comp = Some (is', a', comp', e) -> fits topic comp' \/ q_delta a' = -1.
Proof.
  induction l as [|b0 l IH]; intros is a comp is' a' comp' e NM OS E; cbn [engine_reading] in E; [inversion E; subst; tauto|].
  inversion NM as [|? ? NB NL]; subst. destruct NB as (x & CX & TX). unfold codec_of in CX.
  destruct (read b0) as [b|]; [|discriminate]. destruct (to_memory b) as [m|]; [|discriminate].
  destruct (run_chain is (b_base b) (h_first_ts (b_hdr b)) (b_recs m)) as [[[is1 out] e1]|]; [|discriminate].
  destruct out as [|r out].
  - set (a1 := if q_base a =? -1 then a else mkOut (q_base a) (q_delta a + (h_last_delta (b_hdr b) + 1)) (q_recs a) (q_bytes a)) in E.
    assert (fits topic comp \/ (q_base a1 = -1 /\ q_delta a1 = -1)) as OS1.
    { unfold a1. destruct OS as [F|(B1 & D1)]; [left; exact F|]. rewrite B1. right. cbn. auto. }
    destruct e1 as [e1|]; [inversion E; subst a' comp'; tauto|]. eapply IH; [exact NL|exact OS1|exact E].
  - cbv zeta in E. rewrite CX in E.
    assert (fits topic (if q_base a =? -1 then x else comp)) as FT.
    { destruct (q_base a =? -1) eqn:QB; [split; [eapply codec_range; eassumption|exact TX]|]. apply Z.eqb_neq in QB. destruct OS as [F|(B1 & _)]; [exact F|contradiction]. }
    destruct (mx <? _); [inversion E; subst a' comp'; left; exact FT|]. destruct e1 as [e1|]; [inversion E; subst a' comp'; left; exact FT|].
    eapply IH; [exact NL|left; exact FT|exact E].
Qed.
Lemma compressed_hdr K m p : compress_batch K m = Ok p -> b_hdr p = b_hdr m.
Proof.
  unfold compress_batch. destruct (get_compression (b_hdr m)) as [a|]; [|discriminate]. cbn [bind]. destruct (compress K a _) as [z|]; [|discriminate]. cbn [bind].
  intros E. inversion E. reflexivity.
Qed.
Lemma modules_named K is l l' topic : Forall (named topic) l -> apply_modules K is l = Some l' -> total_records l' <> 0 -> Forall (named topic) l'.
Proof.
  intros NM E T. unfold apply_modules in E. destruct (engine_reading (from_request K) is (2 ^ 64 - 1) l out0 0) as [[[[is' a] comp] [e|]]|] eqn:R; [discriminate| |discriminate].
  destruct (compress_batch K (made_batch a comp)) as [p|] eqn:C; [|discriminate]. inversion E; subst l'. pose proof (compressed_hdr _ _ _ C) as H.
  constructor; [|constructor]. destruct (engine_codec (from_request K) topic _ l is out0 0 is' a comp None NM (or_intror (conj eq_refl eq_refl)) R) as [(RG & F)|D].
  - exists comp. unfold codec_of. rewrite H. cbn [made_batch b_hdr]. split; [apply compression_set; assumption|]. destruct topic; [symmetry; congruence|exact I].
  - exfalso. apply T. rewrite total_records_eq. cbn [total]. unfold records_len. rewrite H. cbn. rewrite D. reflexivity.
Qed.
Lemma accepted_modules K c now is dedup ld topic l : l_compression ld = Some topic -> Forall (named topic) l ->
  p_code (snd (produce_partition c now (apply_modules K is) dedup (Some ld) l)) <> CompressionError.
Proof. intros LC NM. apply (validated_never _ _ _ _ _ _ topic LC). intros l' E T. eapply modules_named; eassumption. Qed.
Lemma topic_named K is l l' topic : Forall (named topic) l -> apply_topic K is l = Some l' -> Forall (fun b => 0 < records_len b) l' -> Forall (named topic) l'.
Proof.
  intros NM E T. unfold apply_topic in E. destruct (engine_reading (from_request K) is (2 ^ 64 - 1) l out0 0) as [[[[is' a] comp] [e|]]|] eqn:R; [discriminate| |discriminate].
  destruct (q_recs a) as [|r0 rs]; [inversion E; constructor|].
  destruct (compress_batch K (made_batch a comp)) as [p|] eqn:C; [|discriminate]. inversion E; subst l'. pose proof (compressed_hdr _ _ _ C) as H.
  constructor; [|constructor]. destruct (engine_codec (from_request K) topic _ l is out0 0 is' a comp None NM (or_intror (conj eq_refl eq_refl)) R) as [(RG & F)|D].
  - exists comp. unfold codec_of. rewrite H. cbn [made_batch b_hdr]. split; [apply compression_set; assumption|]. destruct topic; [symmetry; congruence|exact I].
  - exfalso. inversion T as [|? ? T1 _]; subst. unfold records_len in T1. rewrite H in T1. cbn in T1. rewrite D in T1. cbn in T1. lia.
Qed.

(** * Same records *)

(** The same batch with its records as they are and compressed, maybe on
    different ways through the log. *)
Definition twin (K : algorithms) (b p : batch bytes) : Prop :=
  b_base p = b_base b /\ h_attr (b_hdr p) = h_attr (b_hdr b) /\ h_last_delta (b_hdr p) = h_last_delta (b_hdr b) /\ h_first_ts (b_hdr p) = h_first_ts (b_hdr b)
  /\ exists rs a, records_ok rs /\ b_recs b = c_enc memory_codec rs /\ get_compression (b_hdr p) = Ok a /\ compress K a (b_recs b) = Ok (b_recs p).
Lemma packed_twin K m p : mem_batch_ok m -> packed K m p -> twin K (to_raw m) p.
Proof.
  intros OK P. unfold packed, compress_batch in P. destruct (get_compression (b_hdr m)) as [a|] eqn:C; [|discriminate]. cbn [bind] in P.
  destruct (compress K a _) as [z|] eqn:Z; [|discriminate]. cbn [bind] in P. inversion P; subst p. unfold twin, to_raw. cbn [b_base b_hdr b_recs].
  repeat (split; [reflexivity|]). exists (b_recs m), a. split; [apply OK|]. auto.
Qed.
Lemma twins K ms ps : Forall mem_batch_ok ms -> Forall2 (packed K) ms ps -> Forall2 (twin K) (map to_raw ms) ps.
Proof.
  intros OK F. induction F as [|m p ms ps P F IH]; [constructor|]. inversion OK; subst. constructor; [apply packed_twin; assumption|apply IH; assumption].
Qed.
Lemma twin_received K b p : twin K b p -> twin K (received raw_codec b) (received raw_codec p).
Proof.
  intros (E1 & E2 & E3 & E4 & rs & a & OK & ER & C & Z). unfold twin. cbn [received received_with b_base b_hdr b_recs received_hdr with_crc h_attr h_last_delta h_first_ts].
  repeat (split; [assumption|]). exists rs, a. split; [exact OK|]. split; [exact ER|]. split; [exact C|exact Z].
Qed.
Lemma twin_base K b p o : twin K b p -> twin K (with_base b o) (with_base p o).
Proof.
  intros (E1 & E2 & E3 & E4 & rs & a & OK & ER & C & Z). unfold twin, with_base. cbn [b_base b_hdr b_recs].
  repeat (split; [first [reflexivity|assumption]|]). exists rs, a. split; [exact OK|]. split; [exact ER|]. split; [exact C|exact Z].
Qed.
Lemma twin_len K b p : twin K b p -> records_len p = records_len b.
Proof. intros (_ & _ & E & _). unfold records_len. rewrite E. reflexivity. Qed.
Lemma twins_number K bs ps : Forall2 (twin K) bs ps -> forall o, Forall2 (twin K) (number o bs) (number o ps).
Proof.
  intros F. induction F as [|b p bs ps T F IH]; intros o; cbn [number]; [constructor|]. rewrite (twin_len _ _ _ T). constructor; [apply twin_base; assumption|apply IH].
Qed.
Lemma twins_received K bs ps : Forall2 (twin K) bs ps -> Forall2 (twin K) (map (received raw_codec) bs) (map (received raw_codec) ps).
Proof. intros F. induction F; constructor; [apply twin_received; assumption|assumption]. Qed.

Lemma unpacked K b p a : sound K -> twin K b p -> get_compression (b_hdr p) = Ok a ->
  (a = 0 /\ b_recs p = b_recs b) \/ (1 <= a <= 4 /\ uncompress K a (b_recs p) = Ok (Some (b_recs b))).
Proof.
  intros S (_ & _ & _ & _ & rs & a' & OK & ER & C & Z) CA. assert (a' = a) as -> by congruence. pose proof (codec_range _ _ C) as R. unfold compress, uncompress in *.
  destruct (a =? 0) eqn:E; [apply Z.eqb_eq in E; left; split; [exact E|inversion Z; congruence]|]. apply Z.eqb_neq in E. right. split; [lia|].
  destruct (S a (b_recs b) (b_recs p) ltac:(lia)) as (_ & U); [rewrite ER; apply mem_bytes; exact OK|exact Z|]. rewrite U. reflexivity.
Qed.
Lemma twin_open K b p : sound K -> twin K b p -> exists rs, records_ok rs /\ memory_records (b_recs b) = Ok rs /\ records_in K p = Ok rs.
Proof.
  intros S T. pose proof T as (_ & _ & _ & _ & rs & a & OK & ER & C & Z). exists rs. pose proof (whole_records _ OK) as W. rewrite <- ER in W.
  split; [exact OK|]. split; [exact W|]. unfold records_in. rewrite C. cbn [bind].
  destruct (unpacked K b p a S T C) as [(-> & E)|(R & U)]; [cbn; rewrite E; exact W|]. replace (a =? 0) with false by lia. rewrite U. cbn [bind]. exact W.
Qed.
Lemma same_records K m p : sound K -> mem_batch_ok m -> packed K m p ->
  exists m', open_batch K p = Ok m' /\ to_memory (to_raw m) = Ok m' /\ b_base m' = b_base m /\ b_hdr m' = b_hdr m /\ b_recs m' = b_recs m.
Proof.
  intros S OK P. pose proof (packed_twin _ _ _ OK P) as T. destruct (twin_open _ _ _ S T) as (rs & RO & W & U). pose proof T as (EB & _).
  assert (b_hdr p = b_hdr m) as EH by (eapply compressed_hdr; eassumption).
  assert (rs = b_recs m) as ->. { cbn [to_raw b_recs] in W. rewrite whole_records in W by apply OK. congruence. }
  unfold open_batch, to_memory. rewrite U, W. cbn [bind]. rewrite EB, EH. eexists. split; [reflexivity|]. split; reflexivity || (repeat split; reflexivity).
Qed.

(** * Consumers *)
Lemma twin_shown K s b p : sound K -> twin K b p ->
  match open_batch K p with Ok m => shown s m | Err _ => [ErrItem] end = match to_memory b with Ok m => shown s m | Err _ => [ErrItem] end.
Proof.
  intros S T. destruct (twin_open _ _ _ S T) as (rs & RO & W & U). pose proof T as (EB & _ & _ & EF & _). unfold open_batch, to_memory. rewrite U, W. cbn [bind].
  unfold shown, into_consumer_records. cbn [b_base b_hdr b_recs]. rewrite EB, EF. reflexivity.
Qed.
Lemma number_ok l : forall o, Forall raw_batch_ok l -> 0 <= o -> o + total l < 2 ^ 63 -> Forall raw_batch_ok (number o l).
Proof.
  induction l as [|b l IH]; intros o OK O L; cbn [number total] in *; [constructor|]. inversion OK; subst. pose proof (total_nonneg l).
  assert (0 <= records_len b) by (unfold records_len; destruct (_ <? 0) eqn:E; lia).
  constructor; [apply with_base_ok; [assumption|lia]|]. apply IH; [assumption|lia|lia].
Qed.
Lemma twins_total K bs ps : Forall2 (twin K) bs ps -> total ps = total bs.
Proof. intros F. induction F as [|b p bs ps T F IH]; [reflexivity|]. cbn [total]. rewrite IH, (twin_len _ _ _ T). reflexivity. Qed.
Lemma mem_ok_raw ms : Forall mem_batch_ok ms -> Forall raw_batch_ok (map to_raw ms).
Proof. intros F. induction F; constructor; [apply to_raw_ok; assumption|assumption]. Qed.

Section Sent.
  Context (K : algorithms) (o : Z) (ms : list (batch (list rec))) (ps : list (batch bytes)).
  Context (S : sound K) (OK : Forall mem_batch_ok ms) (P : Forall2 (packed K) ms ps) (OKp : Forall raw_batch_ok ps).
  Context (O : 0 <= o) (L : o + total ps < 2 ^ 63).
  Context (S1 : zlen (flat_map renc (number o ps)) < 2 ^ 31) (S2 : zlen (flat_map renc (number o (map to_raw ms))) < 2 ^ 31).
  Notation bs := (map to_raw ms).
  Lemma sent_twins : Forall2 (twin K) (receive (flat_map renc (number o bs))) (receive (flat_map renc (number o ps))).
  Proof.
    pose proof (twins _ _ _ OK P) as T.
    fold (encs (number o bs)). fold (encs (number o ps)). rewrite (receive_encs (number o bs) (zlen (encs (number o bs)))), (receive_encs (number o ps) (zlen (encs (number o ps)))).
    - apply twins_received. apply twins_number. exact T.
    - apply number_ok; assumption.
    - lia.
    - exact S1.
    - apply number_ok; [apply mem_ok_raw; exact OK|exact O|]. rewrite <- (twins_total _ _ _ T). exact L.
    - lia.
    - exact S2.
  Qed.
  Lemma consumer_same s : shown_items K s (flat_map renc (number o ps)) = items s (Raw (flat_map renc (number o bs))).
  Proof.
    unfold shown_items, items. pose proof sent_twins as T. induction T as [|b p bl pl T TT IH]; [reflexivity|]. cbn [flat_map]. rewrite IH. f_equal.
    apply twin_shown; assumption.
  Qed.
End Sent.

(** * SmartModules *)
Definition reads (K : algorithms) (read : batch bytes -> res (batch bytes)) (p : batch bytes) : Prop := read p = from_request K p.
Lemma engine_same K read mx bs ps : sound K -> Forall2 (twin K) bs ps -> Forall (reads K read) ps -> forall is a comp,
  option_map (fun x => (fst (fst (fst x)), snd (fst (fst x)), snd x)) (engine_reading read is mx ps a comp) = engine_from is mx bs a.
Proof.
  intros S T. induction T as [|b p bs ps T TT IH]; intros RD is a comp; [reflexivity|]. inversion RD as [|? ? R0 RD']; subst. specialize (IH RD').
  cbn [engine_reading engine_from]. unfold reads in R0. rewrite R0. unfold from_request, uncompressed.
  pose proof T as (EB & EA & ED & EF & rs & al & OK & ER & C & Z). rewrite C. cbn [bind].
  assert (exists d, uncompress K al (b_recs p) = Ok d /\ match d with Some s => s | None => b_recs p end = b_recs b) as (d & UD & DD).
  { destruct (unpacked K b p al S T C) as [(-> & E)|(R & U)]; [exists None; split; [reflexivity|exact E]|eexists; split; [exact U|reflexivity]]. }
  rewrite UD. cbn [bind]. rewrite DD. unfold to_memory. cbn [b_recs b_base b_hdr]. rewrite ER, whole_records by exact OK. cbn [bind b_recs].
  rewrite EB, EF, ED. destruct (run_chain is (b_base b) (h_first_ts (b_hdr b)) rs) as [[[is1 out] e1]|]; [|reflexivity].
  destruct out as [|r out].
  - destruct e1; [reflexivity|]. apply IH.
  - cbv zeta. destruct (mx <? _); [reflexivity|]. destruct e1; [reflexivity|]. apply IH.
Qed.
Lemma file_reads K p : has_schema (b_hdr p) = false -> reads K (from_file K) p.
Proof. intros H. unfold reads, from_file, from_request, after_header. rewrite H. reflexivity. Qed.
Lemma past_same K bs ps : sound K -> Forall2 (twin K) bs ps -> Forall (reads K (from_file K)) ps -> past_items K ps = items_of bs.
Proof.
  intros S T. induction T as [|b p bs ps T TT IH]; intros RD; [reflexivity|]. inversion RD as [|? ? R0 RD']; subst. specialize (IH RD').
  cbn [past_items items_of]. unfold reads in R0. rewrite R0. unfold from_request, uncompressed.
  pose proof T as (EB & EA & ED & EF & rs & al & OK & ER & C & Z). rewrite C. cbn [bind].
  assert (exists d, uncompress K al (b_recs p) = Ok d /\ match d with Some s => s | None => b_recs p end = b_recs b) as (d & UD & DD).
  { destruct (unpacked K b p al S T C) as [(-> & E)|(R & U)]; [exists None; split; [reflexivity|exact E]|eexists; split; [exact U|reflexivity]]. }
  rewrite UD. cbn [bind]. rewrite DD. unfold batch_items, to_memory. cbn [b_recs b_base b_hdr]. rewrite ER, whole_records by exact OK. cbn [bind b_recs].
  rewrite EB, EF, IH. reflexivity.
Qed.

Lemma modules_request K is mx ms ps : sound K -> Forall mem_batch_ok ms -> Forall2 (packed K) ms ps ->
  option_map (fun x => (fst (fst (fst x)), snd (fst (fst x)), snd x)) (engine_reading (from_request K) is mx ps out0 0) = engine_from is mx (map to_raw ms) out0.
Proof. intros S OK P. apply (engine_same K); [exact S|apply twins; assumption|]. apply Forall_forall. intros p _. reflexivity. Qed.
Lemma packed_schema K ms ps : Forall2 (packed K) ms ps -> Forall (fun m => has_schema (b_hdr m) = false) ms -> Forall (fun p => has_schema (b_hdr p) = false) ps.
Proof.
  intros F. induction F as [|m p ms ps P F IH]; intros N; [constructor|]. inversion N; subst. constructor; [|apply IH; assumption]. rewrite (compressed_hdr _ _ _ P). assumption.
Qed.
Lemma number_schema l : Forall (fun p => has_schema (b_hdr p) = false) l -> forall o, Forall (fun p => has_schema (b_hdr p) = false) (number o l).
Proof. intros F. induction F as [|p l H F IH]; intros o; cbn [number]; [constructor|]. constructor; [exact H|apply IH]. Qed.
Lemma sent_reads K o ps : Forall raw_batch_ok ps -> 0 <= o -> o + total ps < 2 ^ 63 -> zlen (flat_map renc (number o ps)) < 2 ^ 31 ->
  Forall (fun p => has_schema (b_hdr p) = false) ps -> Forall (reads K (from_file K)) (receive (flat_map renc (number o ps))).
Proof.
  intros OK O L S1 N. fold (encs (number o ps)). rewrite (receive_encs (number o ps) (zlen (encs (number o ps)))); [|apply number_ok; assumption|lia|exact S1].
  apply (number_schema _) with (o := o) in N. clear S1. induction N as [|p l H N IH]; [constructor|]. cbn [map]. constructor; [|exact IH]. apply file_reads. exact H.
Qed.
Lemma modules_log K o is mx ms ps : sound K -> Forall mem_batch_ok ms -> Forall2 (packed K) ms ps -> Forall raw_batch_ok ps ->
  0 <= o -> o + total ps < 2 ^ 63 -> zlen (flat_map renc (number o ps)) < 2 ^ 31 -> zlen (flat_map renc (number o (map to_raw ms))) < 2 ^ 31 ->
  Forall (fun m => has_schema (b_hdr m) = false) ms ->
  option_map (fun x => (fst (fst (fst x)), snd (fst (fst x)), snd x)) (engine_reading (from_file K) is mx (receive (flat_map renc (number o ps))) out0 0)
  = engine_from is mx (receive (flat_map renc (number o (map to_raw ms)))) out0.
Proof.
  intros S OK P OKp O L S1 S2 N. apply (engine_same K); [exact S|apply sent_twins; assumption|]. apply sent_reads; try assumption. eapply packed_schema; eassumption.
Qed.
Lemma lookback_log K o ms ps : sound K -> Forall mem_batch_ok ms -> Forall2 (packed K) ms ps -> Forall raw_batch_ok ps ->
  0 <= o -> o + total ps < 2 ^ 63 -> zlen (flat_map renc (number o ps)) < 2 ^ 31 -> zlen (flat_map renc (number o (map to_raw ms))) < 2 ^ 31 ->
  Forall (fun m => has_schema (b_hdr m) = false) ms ->
  past_items K (receive (flat_map renc (number o ps))) = items_of (receive (flat_map renc (number o (map to_raw ms)))).
Proof.
  intros S OK P OKp O L S1 S2 N. apply (past_same K); [exact S|apply sent_twins; assumption|]. apply sent_reads; try assumption. eapply packed_schema; eassumption.
Qed.

(** What the SmartModules made can be read again. *)
Lemma modules_records K is l p : sound K -> apply_modules K is l = Some [p] -> exists is' a comp,
  engine_reading (from_request K) is (2 ^ 64 - 1) l out0 0 = Some (is', a, comp, None)
  /\ (records_ok (q_recs a) -> exists m, open_batch K p = Ok m /\ b_recs m = q_recs a).
Proof.
  intros S E. unfold apply_modules in E. destruct (engine_reading (from_request K) is (2 ^ 64 - 1) l out0 0) as [[[[is' a] comp] [e|]]|] eqn:R; [discriminate| |discriminate].
  destruct (compress_batch K (made_batch a comp)) as [p'|] eqn:C; [|discriminate]. inversion E; subst p'. exists is', a, comp. split; [reflexivity|]. intros RO.
  assert (twin K (to_raw (made_batch a comp)) p) as T.
  { unfold compress_batch in C. destruct (get_compression (b_hdr (made_batch a comp))) as [al|] eqn:CC; [|discriminate]. cbn [bind] in C.
    destruct (compress K al _) as [z|] eqn:Z; [|discriminate]. cbn [bind] in C. inversion C; subst p. unfold twin, to_raw. cbn [b_base b_hdr b_recs].
    repeat (split; [reflexivity|]). exists (q_recs a), al. split; [exact RO|]. split; [reflexivity|]. split; [exact CC|exact Z]. }
  destruct (twin_open _ _ _ S T) as (rs & _ & W & U). cbn [to_raw b_recs made_batch engine_batch] in W. rewrite whole_records in W by exact RO. inversion W; subst rs.
  unfold open_batch. rewrite U. cbn [bind]. eexists. split; [reflexivity|]. reflexivity.
Qed.

(** * Examples and findings *)
Lemma bytes_check l : forallb (fun x => (0 <=? x) && (x <=? 255)) l = true -> is_bytes l.
Proof. rewrite forallb_forall. intros H. apply Forall_forall. intros x IN. specialize (H _ IN). unfold is_byte. lia. Qed.
Definition demo_recs : list rec := [mkRec 0 0 0 None [104; 105] 0; mkRec 0 5 1 (Some [107]) [106] 0].
Definition demo_mb : mbatch := mkMb 1 0 false 1000 demo_recs.
Definition demo_m (a : Z) : batch (list rec) := mb_batch_with a demo_mb.
Definition demo_p (a : Z) : batch bytes := match compress_batch marking (demo_m a) with Ok p => p | Err _ => to_raw (demo_m a) end.
Lemma demo_packed : Forall2 (packed marking) [demo_m 1; demo_m 0; demo_m 4] [demo_p 1; demo_p 0; demo_p 4].
Proof. repeat constructor. Qed.
Lemma demo_m_ok a : 0 <= a <= 4 -> mem_batch_ok (demo_m a).
Proof.
  intros R. assert (header_ok (b_hdr (demo_m a))) as HO.
  { unfold demo_m, mb_batch_with. cbn [b_hdr]. destruct (flags_independent (b_hdr (mb_batch demo_mb))) as (F & _); [vm_compute; repeat split; congruence|]. apply (F a R). }
  unfold mem_batch_ok, batch_ok. split; [vm_compute; split; congruence|]. split; [vm_compute; split; congruence|]. split; [exact HO|].
  split; [|vm_compute; reflexivity]. split; [|vm_compute; reflexivity].
  repeat constructor; cbn; try (vm_compute; congruence); try (unfold is_byte; lia).
Qed.

Lemma demo_p_ok : Forall raw_batch_ok [demo_p 1; demo_p 0; demo_p 4].
Proof.
  assert (forall a, 0 <= a <= 4 -> b_hdr (demo_p a) = b_hdr (demo_m a) -> b_base (demo_p a) = 1 -> b_schema (demo_p a) = 0 -> is_bytes (b_recs (demo_p a)) -> zlen (b_recs (demo_p a)) < 100 -> raw_batch_ok (demo_p a)) as G.
  { intros a R EH EB ES B L. destruct (demo_m_ok a R) as (_ & _ & HO & _). unfold raw_batch_ok, batch_ok. rewrite EH, EB, ES.
    split; [vm_compute; split; congruence|]. split; [vm_compute; split; congruence|]. split; [exact HO|]. split; [exact B|]. change (2 ^ 31 - 61) with 2147483587. lia. }
  repeat (constructor; [apply G; try lia; try reflexivity; try (vm_compute; reflexivity); apply bytes_check; vm_compute; reflexivity|]). constructor.
Qed.
Lemma demo_seen : shown_items marking 11 (flat_map renc (number 10 [demo_p 1; demo_p 0; demo_p 4]))
  = items 11 (Raw (flat_map renc (number 10 (map to_raw [demo_m 1; demo_m 0; demo_m 4]))))
  /\ length (shown_items marking 11 (flat_map renc (number 10 [demo_p 1; demo_p 0; demo_p 4]))) = 5%nat
  /\ b_recs (demo_p 1) <> b_recs (demo_p 0).
Proof. vm_compute. repeat split. discriminate. Qed.

(** A batch whose records are not what its header says is stored; consumers get
    an error for it, and a stream with SmartModules never gets beyond it. *)
Definition bad_p : batch bytes := mkBatch 0 0 (b_hdr (demo_m 1)) 0 [9; 9].
Lemma bad_stored : p_code (snd (produce_partition demo_c 0 (fun l => Some l) (fun l => Some l) (Some (mkLeader demo_r 1 (Some (Some 1)))) [bad_p])) = NoError.
Proof. vm_compute. reflexivity. Qed.
Lemma bad_read is mx : engine_reading (from_file marking) is mx (receive (renc (with_base bad_p 12))) out0 0 = None.
Proof.
  replace (receive (renc (with_base bad_p 12))) with [received raw_codec (with_base bad_p 12)]; [|vm_compute; reflexivity].
  cbn [engine_reading]. replace (from_file marking (received raw_codec (with_base bad_p 12))) with (@Err (batch bytes) InvalidData); [reflexivity|]. vm_compute. reflexivity.
Qed.
Lemma garbled_refuted : exists K c ld p, sound K /\ config_ok c /\ reached c (l_store ld) /\ raw_batch_ok p /\ named (Some 1) p /\ l_compression ld = Some (Some 1)
  /\ p_code (snd (produce_partition c 0 (fun l => Some l) (fun l => Some l) (Some ld) [p])) = NoError
  /\ shown_items K 0 (renc (with_base p (get_leo (l_store ld)))) = [ErrItem]
  /\ (forall is mx, engine_reading (from_file K) is mx (receive (renc (with_base p (get_leo (l_store ld))))) out0 0 = None)
  /\ exists e, past_items K (receive (renc (with_base p (get_leo (l_store ld))))) = Fail e.
Proof.
  exists marking, demo_c, (mkLeader demo_r 1 (Some (Some 1))), bad_p. split; [exact marking_sound|]. split; [exact demo_c_ok|]. split; [exact demo_r_reached|].
  split. { destruct (demo_m_ok 1 ltac:(lia)) as (_ & _ & HO & _). unfold raw_batch_ok, batch_ok. split; [vm_compute; split; congruence|]. split; [vm_compute; split; congruence|].
    split; [exact HO|]. split; [repeat constructor; vm_compute; congruence|vm_compute; reflexivity]. }
  split; [exists 1; split; reflexivity|]. split; [reflexivity|]. split; [exact bad_stored|].
  replace (get_leo (l_store (mkLeader demo_r 1 (Some (Some 1))))) with 12 by (vm_compute; reflexivity).
  split; [vm_compute; reflexivity|]. split; [exact bad_read|]. eexists. vm_compute. reflexivity.
Qed.

(** A batch with a schema id is read by consumers, but SmartModules stop at it. *)
Definition schema_m : batch (list rec) := set_schema_id (demo_m 0) 7.
Lemma schema_read is mx : engine_reading (from_file marking) is mx (receive (renc (with_base (to_raw schema_m) 0))) out0 0 = None.
Proof.
  replace (receive (renc (with_base (to_raw schema_m) 0))) with [received raw_codec (with_base (to_raw schema_m) 0)]; [|vm_compute; reflexivity].
  assert (match from_file marking (received raw_codec (with_base (to_raw schema_m) 0)) with Ok b => match to_memory b with Ok _ => true | Err _ => false end | Err _ => false end = false) as E by (vm_compute; reflexivity).
  cbn [engine_reading]. destruct (from_file marking (received raw_codec (with_base (to_raw schema_m) 0))) as [b|]; [|reflexivity].
  destruct (to_memory b) as [m|]; [discriminate|reflexivity].
Qed.
Lemma schema_refuted : exists K m p, sound K /\ mem_batch_ok m /\ packed K m p /\ raw_batch_ok p /\ named (Some 0) p
  /\ map (fun i => match i with Rec c => Some (r_val (cr_rec c)) | ErrItem => None end) (shown_items K 0 (renc (with_base p 0))) = [Some [104; 105]; Some [106]]
  /\ forall is mx, engine_reading (from_file K) is mx (receive (renc (with_base p 0))) out0 0 = None.
Proof.
  exists marking, schema_m, (to_raw schema_m). split; [exact marking_sound|].
  assert (mem_batch_ok schema_m) as OK.
  { pose proof (demo_m_ok 0 ltac:(lia)) as (A & _ & HO & D & E). unfold mem_batch_ok, batch_ok, schema_m, set_schema_id. cbn [b_base b_schema b_hdr b_recs].
    split; [exact A|]. split; [vm_compute; split; congruence|]. split; [apply (flags_independent _ HO)|]. split; [exact D|exact E]. }
  split; [exact OK|]. split; [reflexivity|]. split; [apply to_raw_ok; exact OK|]. split; [exists 0; split; reflexivity|]. split; [vm_compute; reflexivity|]. exact schema_read.
Qed.
Definition keep_hi : inst := mkInst (UFilter (fun m v => (m, UOk (match v_val v with 104 :: _ => true | _ => false end)))) [] [].
