From Verif Require Import Base ListFacts WireModel WireSpec WireProofs RecordModel RecordSpec.

(** * Records *)

Lemma record_data_lawful : lawful record_data_codec payload_ok.
Proof.
  split; [|split].
  - intros s rest [Hb Hl]. cbn [c_dec c_enc record_data_codec]. rewrite <- app_assoc.
    pose proof (zlen_nonneg s). destruct (varint_laws (zlen s)) as (R & _).
    { unfold in_s. change (2 ^ (32 - 1)) with (2 ^ 31). lia. }
    rewrite R. cbn [bind]. replace (zlen s <? 0) with false by lia.
    rewrite ztake_app_exact, zdrop_app_exact. reflexivity.
  - intros s [Hb Hl]. cbn [c_size c_enc record_data_codec]. rewrite zlen_app.
    pose proof (zlen_nonneg s). destruct (varint_laws (zlen s)) as (_ & S & _).
    { unfold in_s. change (2 ^ (32 - 1)) with (2 ^ 31). lia. }
    rewrite S. reflexivity.
  - intros s [Hb Hl]. cbn [c_enc record_data_codec]. apply is_bytes_app. split; [|assumption].
    pose proof (zlen_nonneg s). apply varint_laws. unfold in_s. change (2 ^ (32 - 1)) with (2 ^ 31). lia.
Qed.

Definition body_ok (t : Z * (Z * (Z * (option bytes * (bytes * Z))))) : Prop :=
  in_s 8 (fst t) /\ in_s 32 (fst (snd t)) /\ in_s 32 (fst (snd (snd t)))
  /\ (match fst (snd (snd (snd t))) with Some k => payload_ok k | None => True end)
  /\ payload_ok (fst (snd (snd (snd (snd t))))) /\ in_s 32 (snd (snd (snd (snd (snd t))))).

Lemma body_lawful : lawful body_tuple_codec body_ok.
Proof.
  unfold body_tuple_codec, body_ok.
  pose proof (pair_lawful _ _ _ _ record_data_lawful varint_lawful) as L5.
  pose proof (pair_lawful _ _ _ _ (option_lawful _ _ record_data_lawful) L5) as L4.
  pose proof (pair_lawful _ _ _ _ varint_lawful L4) as L3.
  pose proof (pair_lawful _ _ _ _ varint_lawful L3) as L2.
  exact (pair_lawful _ _ _ _ (s_lawful 1 ltac:(lia)) L2).
Qed.

Lemma rec_body_ok r : rec_ok r -> body_ok (rec_tuple r).
Proof. unfold rec_ok, body_ok, rec_tuple. cbn [fst snd]. tauto. Qed.

Lemma rec_lawful : lawful rec_codec rec_ok.
Proof.
  destruct body_lawful as (R & S & B). split; [|split].
  - intros r rest Hr. cbn [c_dec c_enc rec_codec]. rewrite <- app_assoc.
    pose proof (rec_body_ok r Hr) as Hb. destruct Hr as (_ & _ & _ & _ & _ & _ & Hlen).
    pose proof (zlen_nonneg (rec_body r)). destruct (varint_laws (zlen (rec_body r))) as (V & _).
    { unfold in_s. change (2 ^ (32 - 1)) with (2 ^ 31). lia. }
    rewrite V. cbn [bind]. rewrite zlen_app.
    replace (zlen (rec_body r) + zlen rest <? zlen (rec_body r)) with false by (pose proof (zlen_nonneg rest); lia).
    unfold rec_body. rewrite R by assumption. cbn [bind]. destruct r; reflexivity.
  - intros r Hr. cbn [c_size c_enc rec_codec]. rewrite S by (apply rec_body_ok; assumption).
    rewrite zlen_app. unfold rec_body.
    destruct Hr as (_ & _ & _ & _ & _ & _ & Hlen). pose proof (zlen_nonneg (rec_body r)).
    destruct (varint_laws (zlen (rec_body r))) as (_ & V & _).
    { unfold in_s. change (2 ^ (32 - 1)) with (2 ^ 31). lia. }
    unfold rec_body in *. rewrite V. reflexivity.
  - intros r Hr. cbn [c_enc rec_codec]. apply is_bytes_app. split.
    + destruct Hr as (_ & _ & _ & _ & _ & _ & Hlen). pose proof (zlen_nonneg (rec_body r)).
      apply varint_laws. unfold in_s. change (2 ^ (32 - 1)) with (2 ^ 31). lia.
    + apply B. apply rec_body_ok. assumption.
Qed.

(** A truncated record is always "end of input": the length prefix guards it. *)
Lemma rec_trunc (E : err -> Prop) : E Eof -> truncation_yields E rec_codec rec_ok.
Proof.
  intros EE r k Hr Hk. exists Eof. split; [exact EE|]. cbn [c_dec c_enc rec_codec] in *.
  destruct Hr as (_ & _ & _ & _ & _ & _ & Hlen). pose proof (zlen_nonneg (rec_body r)).
  assert (in_s 32 (zlen (rec_body r))) as Hin by (unfold in_s; change (2 ^ (32 - 1)) with (2 ^ 31); lia).
  destruct (varint_laws _ Hin) as (V & _ & _ & T).
  rewrite app_length in Hk.
  destruct (Nat.lt_ge_cases k (length (varint_encode (zlen (rec_body r))))) as [Hlt|Hge].
  - rewrite firstn_app_le by lia. rewrite T by assumption. reflexivity.
  - rewrite firstn_app_ge by lia. rewrite V. cbn [bind].
    set (n := (k - _)%nat).
    assert (zlen (firstn n (rec_body r)) < zlen (rec_body r)) as Hz.
    { unfold zlen. rewrite firstn_length. unfold n. lia. }
    replace (zlen (firstn n (rec_body r)) <? zlen (rec_body r)) with true by lia. reflexivity.
Qed.

Lemma memory_lawful : lawful memory_codec records_ok.
Proof. exact (vec_lawful _ _ rec_lawful). Qed.
Lemma memory_trunc : truncation_yields (eq Eof) memory_codec records_ok.
Proof. apply (vec_trunc (eq Eof) eq_refl _ _ rec_lawful). apply rec_trunc. reflexivity. Qed.

(** * The checksum is a 32-bit number *)

Lemma lxor_range a b n : 0 <= n -> 0 <= a < 2 ^ n -> 0 <= b < 2 ^ n -> 0 <= Z.lxor a b < 2 ^ n.
Proof.
  intros Hn Ha Hb.
  assert (forall x, 0 <= x < 2 ^ n <-> Z.shiftr x n = 0) as K.
  { intros x. rewrite Z.shiftr_div_pow2 by lia. pose proof (pow2_pos n Hn).
    split; intros H1; [apply Z.div_small; assumption|].
    apply Z.div_small_iff in H1; lia. }
  apply K. rewrite Z.shiftr_lxor. apply K in Ha, Hb. rewrite Ha, Hb. reflexivity.
Qed.
Lemma shiftr1_range c : 0 <= c < 2 ^ 32 -> 0 <= Z.shiftr c 1 < 2 ^ 32.
Proof. intros. rewrite Z.shiftr_div_pow2 by lia. change (2 ^ 1) with 2. lia. Qed.
Lemma crc_bit_range c : 0 <= c < 2 ^ 32 -> 0 <= crc_bit c < 2 ^ 32.
Proof.
  intros H. unfold crc_bit. pose proof (shiftr1_range c H). destruct (_ =? 1); [|assumption].
  apply lxor_range; [lia|assumption|lia].
Qed.
Lemma crc_byte_range c b : 0 <= c < 2 ^ 32 -> is_byte b -> 0 <= crc_byte c b < 2 ^ 32.
Proof.
  intros H Hb. unfold crc_byte. unfold is_byte in Hb. repeat apply crc_bit_range.
  apply lxor_range; lia.
Qed.
Lemma crc32c_range bs : is_bytes bs -> in_u 32 (crc32c bs).
Proof.
  intros H. unfold crc32c, in_u. apply lxor_range; [lia| |lia].
  assert (0 <= 0xFFFFFFFF < 2 ^ 32) as H0 by lia. revert H0. generalize 0xFFFFFFFF.
  induction H as [|b bs Hb Hbs IH]; intros c Hc; cbn [fold_left]; [assumption|].
  apply IH. apply crc_byte_range; assumption.
Qed.

(** * Batches *)

Definition hdr_tuple_codec :=
  pair_codec i64_codec (pair_codec i32_codec (pair_codec i32_codec (pair_codec i8_codec (pair_codec u32_codec
  (pair_codec i16_codec (pair_codec i32_codec (pair_codec i64_codec (pair_codec i64_codec (pair_codec i64_codec
  (pair_codec i16_codec i32_codec)))))))))).
Definition hdr_tuple (base len : Z) (h : bheader) :=
  (base, (len, (h_epoch h, (h_magic h, (h_crc h, (h_attr h, (h_last_delta h, (h_first_ts h, (h_max_ts h,
   (h_pid h, (h_pepoch h, h_seq h))))))))))).
Definition hdr_of_tuple (t : Z*(Z*(Z*(Z*(Z*(Z*(Z*(Z*(Z*(Z*(Z*Z))))))))))) : Z * Z * bheader :=
  let '(base, (len, (a, (b, (c, (d, (e, (f, (g, (i, (j, k))))))))))) := t in (base, len, mkHdr a b c d e f g i j k).

Lemma header_dec_tuple bs :
  header_dec bs = let* (t, r) := c_dec hdr_tuple_codec bs in Ok (hdr_of_tuple t, r).
Proof.
  unfold header_dec, hdr_tuple_codec. cbn [c_dec pair_codec].
  repeat match goal with
  | |- context [bind (c_dec ?c ?b) _] => destruct (c_dec c b) as [[? ?]|]; cbn [bind]; [|reflexivity]
  end. reflexivity.
Qed.

Definition full_header_ok base len h : Prop :=
  in_s 64 base /\ in_s 32 len /\ in_u 32 (h_crc h) /\ header_ok h.

Definition hdr_tuple_ok (t : Z*(Z*(Z*(Z*(Z*(Z*(Z*(Z*(Z*(Z*(Z*Z))))))))))) : Prop :=
  let '(base, (len, (a, (b, (c, (d, (e, (f, (g, (i, (j, k))))))))))) := t in
  full_header_ok base len (mkHdr a b c d e f g i j k).

Lemma hdr_lawful_trunc : lawful hdr_tuple_codec hdr_tuple_ok /\ truncation_yields (eq Eof) hdr_tuple_codec hdr_tuple_ok.
Proof.
  pose proof (s_lawful 8 ltac:(lia)) as L64. pose proof (s_lawful 4 ltac:(lia)) as L32.
  pose proof (s_lawful 2 ltac:(lia)) as L16. pose proof (s_lawful 1 ltac:(lia)) as L8.
  pose proof (u_lawful 4) as LU32.
  pose proof (fun n ok => s_trunc (eq Eof) eq_refl n ok) as T.
  pose proof (u_trunc (eq Eof) eq_refl 4 (in_u 32)) as TU.
  pose proof (pair_lawful _ _ _ _ L16 L32) as M1.
  pose proof (pair_trunc _ _ _ _ _ L16 (T _ _) (T 4%nat (in_s 32))) as N1.
  pose proof (pair_lawful _ _ _ _ L64 M1) as M2. pose proof (pair_trunc _ _ _ _ _ L64 (T _ _) N1) as N2.
  pose proof (pair_lawful _ _ _ _ L64 M2) as M3. pose proof (pair_trunc _ _ _ _ _ L64 (T _ _) N2) as N3.
  pose proof (pair_lawful _ _ _ _ L64 M3) as M4. pose proof (pair_trunc _ _ _ _ _ L64 (T _ _) N3) as N4.
  pose proof (pair_lawful _ _ _ _ L32 M4) as M5. pose proof (pair_trunc _ _ _ _ _ L32 (T _ _) N4) as N5.
  pose proof (pair_lawful _ _ _ _ L16 M5) as M6. pose proof (pair_trunc _ _ _ _ _ L16 (T _ _) N5) as N6.
  pose proof (pair_lawful _ _ _ _ LU32 M6) as M7. pose proof (pair_trunc _ _ _ _ _ LU32 TU N6) as N7.
  pose proof (pair_lawful _ _ _ _ L8 M7) as M8. pose proof (pair_trunc _ _ _ _ _ L8 (T _ _) N7) as N8.
  pose proof (pair_lawful _ _ _ _ L32 M8) as M9. pose proof (pair_trunc _ _ _ _ _ L32 (T _ _) N8) as N9.
  pose proof (pair_lawful _ _ _ _ L32 M9) as M10. pose proof (pair_trunc _ _ _ _ _ L32 (T _ _) N9) as N10.
  pose proof (pair_lawful _ _ _ _ L64 M10) as M11. pose proof (pair_trunc _ _ _ _ _ L64 (T _ _) N10) as N11.
  clear - M11 N11. cbn [fst snd] in M11, N11.
  assert (forall t, hdr_tuple_ok t -> 
     (fun p : Z*(Z*(Z*(Z*(Z*(Z*(Z*(Z*(Z*(Z*(Z*Z)))))))))) =>
      in_s 64 (fst p) /\ in_s 32 (fst (snd p)) /\ in_s 32 (fst (snd (snd p))) /\ in_s 8 (fst (snd (snd (snd p))))
      /\ in_u 32 (fst (snd (snd (snd (snd p))))) /\ in_s 16 (fst (snd (snd (snd (snd (snd p)))))) 
      /\ in_s 32 (fst (snd (snd (snd (snd (snd (snd p)))))))
      /\ in_s 64 (fst (snd (snd (snd (snd (snd (snd (snd p))))))))
      /\ in_s 64 (fst (snd (snd (snd (snd (snd (snd (snd (snd p)))))))))
      /\ in_s 64 (fst (snd (snd (snd (snd (snd (snd (snd (snd (snd p))))))))))
      /\ in_s 16 (fst (snd (snd (snd (snd (snd (snd (snd (snd (snd (snd p)))))))))))
      /\ in_s 32 (snd (snd (snd (snd (snd (snd (snd (snd (snd (snd (snd p)))))))))))) t) as W.
  { intros (base, (len, (a, (b, (c, (d, (e, (f, (g, (i, (j, k))))))))))).
    unfold hdr_tuple_ok, full_header_ok, header_ok. cbn [fst snd h_epoch h_magic h_crc h_attr h_last_delta h_first_ts h_max_ts h_pid h_pepoch h_seq].
    tauto. }
  destruct M11 as (R & S & B). split; [split; [|split]|].
  - intros t rest H. apply R. exact (W t H).
  - intros t H. apply S. exact (W t H).
  - intros t H. apply B. exact (W t H).
  - intros t k H. apply N11. exact (W t H).
Qed.

Definition hdr_bytes base len h := c_enc hdr_tuple_codec (hdr_tuple base len h).
Lemma hdr_bytes_length base len h : length (hdr_bytes base len h) = 57%nat.
Proof.
  unfold hdr_bytes, hdr_tuple_codec, hdr_tuple. cbn [c_enc pair_codec fst snd i64_codec i32_codec i8_codec u32_codec i16_codec s_codec u_codec].
  rewrite !app_length, !be_enc_length. reflexivity.
Qed.
Lemma header_dec_full base len h rest : full_header_ok base len h ->
  header_dec (hdr_bytes base len h ++ rest) = Ok ((base, len, h), rest).
Proof.
  intros H. rewrite header_dec_tuple. unfold hdr_bytes. destruct hdr_lawful_trunc as ((R & _) & _).
  rewrite R; [destruct h; reflexivity|]. destruct h. exact H.
Qed.
Lemma header_dec_short base len h k : full_header_ok base len h -> (k < 57)%nat ->
  header_dec (firstn k (hdr_bytes base len h)) = Err Eof.
Proof.
  intros H Hk. rewrite header_dec_tuple. destruct hdr_lawful_trunc as (_ & T).
  destruct (T (hdr_tuple base len h) k) as (e & <- & E).
  - destruct h. exact H.
  - fold (hdr_bytes base len h). rewrite hdr_bytes_length. exact Hk.
  - unfold hdr_bytes. rewrite E. reflexivity.
Qed.

Section BatchLaws.
  Context {R : Type} (rc : codec R) (rdefault : R) (oks : R -> Prop).
  Hypothesis dec_full : forall a, oks a -> c_dec rc (c_enc rc a) = Ok (a, []).
  Hypothesis size_ok : forall a, oks a -> c_size rc a = zlen (c_enc rc a).
  Hypothesis bytes_ok : forall a, oks a -> is_bytes (c_enc rc a).
  Hypothesis empty_default : forall a, oks a -> c_enc rc a = [] -> a = rdefault.
  Let ok := batch_ok oks (fun a => zlen (c_enc rc a)).

  Definition with_crc (h : bheader) (c : Z) : bheader :=
    mkHdr (h_epoch h) (h_magic h) c (h_attr h) (h_last_delta h) (h_first_ts h) (h_max_ts h) (h_pid h) (h_pepoch h) (h_seq h).
  Definition received_hdr (b : batch R) : bheader := with_crc (b_hdr b) (crc32c (batch_tail rc b)).
  Definition received_with (b : batch R) (rs : R) : batch R :=
    mkBatch (b_base b) (calc_batch_len rc b) (received_hdr b)
            (if has_schema (b_hdr b) then b_schema b else 0) rs.
  Definition received (b : batch R) := received_with b (b_recs b).
  Definition schema_bytes (b : batch R) : bytes := if has_schema (b_hdr b) then be_enc 4 (b_schema b) else [].
  (** bytes before the records *)
  Definition front (b : batch R) : bytes :=
    hdr_bytes (b_base b) (calc_batch_len rc b) (received_hdr b) ++ schema_bytes b.
  Definition front_len (b : batch R) : Z := 57 + zlen (schema_bytes b).

  Lemma batch_enc_front b : batch_enc rc b = front b ++ c_enc rc (b_recs b).
  Proof.
    unfold batch_enc, front, hdr_bytes, hdr_tuple_codec, hdr_tuple, schema_bytes, received_hdr, with_crc.
    cbn [c_enc pair_codec fst snd i64_codec i32_codec i8_codec u32_codec i16_codec s_codec u_codec
         h_epoch h_magic h_crc h_attr h_last_delta h_first_ts h_max_ts h_pid h_pepoch h_seq].
    rewrite <- !app_assoc. unfold batch_tail at 2. rewrite <- ?app_assoc. reflexivity.
  Qed.
  Lemma front_zlen b : zlen (front b) = front_len b.
  Proof. unfold front, front_len. rewrite zlen_app. unfold zlen at 1. rewrite hdr_bytes_length. reflexivity. Qed.
  Lemma schema_zlen b : zlen (schema_bytes b) = if has_schema (b_hdr b) then 4 else 0.
  Proof. unfold schema_bytes. destruct (has_schema _); [unfold zlen; rewrite be_enc_length|]; reflexivity. Qed.

  Lemma batch_tail_bytes b : ok b -> is_bytes (batch_tail rc b).
  Proof.
    intros (Hb & Hs & Hh & Hr & Hl). unfold batch_tail.
    repeat (apply is_bytes_app; split; [try apply be_enc_bytes|]).
    - destruct (has_schema _); [apply be_enc_bytes|constructor].
    - apply bytes_ok. assumption.
  Qed.
  Lemma calc_len b : ok b -> calc_batch_len rc b = 45 + zlen (c_enc rc (b_recs b)) + zlen (schema_bytes b).
  Proof.
    intros (Hb & Hs & Hh & Hr & Hl). unfold calc_batch_len, BATCH_HEADER_SIZE, SCHEMA_ID_SIZE.
    rewrite size_ok by assumption. rewrite schema_zlen. apply wrap_s_id; [lia|].
    pose proof (zlen_nonneg (c_enc rc (b_recs b))). unfold in_s. change (2 ^ (32 - 1)) with (2 ^ 31).
    destruct (has_schema _); lia.
  Qed.
  Lemma recv_header_ok b : ok b -> full_header_ok (b_base b) (calc_batch_len rc b) (received_hdr b).
  Proof.
    intros H. pose proof (batch_tail_bytes b H) as HB. pose proof H as (Hb & Hs & Hh & Hr & Hl). unfold full_header_ok.
    split; [assumption|]. split; [unfold calc_batch_len; apply wrap_s_range; lia|].
    split; [unfold received_hdr, with_crc; cbn [h_crc]; apply crc32c_range; assumption|exact Hh].
  Qed.
  Lemma has_schema_crc h c : has_schema (with_crc h c) = has_schema h.
  Proof. reflexivity. Qed.

  (** Decoding when the front is complete: only the records remain. *)
  Lemma batch_dec_front b rest : ok b ->
    batch_dec rc rdefault (front b ++ rest) =
    let* (rs, r) := records_dec rc rdefault (zlen (c_enc rc (b_recs b))) rest in Ok (received_with b rs, r).
  Proof.
    intros H. unfold batch_dec, front. rewrite <- app_assoc, header_dec_full by (apply recv_header_ok; assumption).
    cbn [bind]. unfold received_hdr at 1. rewrite has_schema_crc. unfold schema_bytes.
    pose proof (calc_len b H) as CL. rewrite schema_zlen in CL.
    pose proof H as (Hb & Hs & Hh & Hr & Hl). pose proof (zlen_nonneg (c_enc rc (b_recs b))) as Hnn.
    unfold BATCH_HEADER_SIZE, SCHEMA_ID_SIZE.
    change (2 ^ 31) with 2147483648 in *.
    destruct (has_schema (b_hdr b)) eqn:HS.
    - destruct (u_lawful 4) as (RU & _).
      change (be_enc 4 (b_schema b)) with (c_enc u32_codec (b_schema b)). unfold u32_codec. rewrite RU by exact Hs.
      cbn [bind]. rewrite CL.
      rewrite (as_usize_id (45 + _ + 4)) by (change (2 ^ 63) with 9223372036854775808; lia).
      replace (45 + zlen (c_enc rc (b_recs b)) + 4 - 45 - 4) with (zlen (c_enc rc (b_recs b))) by lia.
      rewrite as_usize_id by (change (2 ^ 63) with 9223372036854775808; lia).
      destruct (records_dec _ _ _ _) as [[rs r]|]; [|reflexivity]. cbn [bind]. unfold received_with. rewrite HS, CL. reflexivity.
    - cbn [app]. rewrite CL.
      rewrite (as_usize_id (45 + _ + 0)) by (change (2 ^ 63) with 9223372036854775808; lia).
      replace (45 + zlen (c_enc rc (b_recs b)) + 0 - 45) with (zlen (c_enc rc (b_recs b))) by lia.
      rewrite as_usize_id by (change (2 ^ 63) with 9223372036854775808; lia).
      destruct (records_dec _ _ _ _) as [[rs r]|]; [|reflexivity]. cbn [bind]. unfold received_with. rewrite HS, CL. reflexivity.
  Qed.

  Lemma batch_dec_full b rest : ok b -> batch_dec rc rdefault (batch_enc rc b ++ rest) = Ok (received b, rest).
  Proof.
    intros H. rewrite batch_enc_front, <- app_assoc, batch_dec_front by assumption.
    pose proof H as (Hb & Hs & Hh & Hr & Hl). unfold records_dec.
    rewrite ztake_app_exact, zdrop_app_exact.
    destruct (c_enc rc (b_recs b)) as [|x l] eqn:E.
    - cbn [bind app]. unfold received. rewrite (empty_default _ Hr E). reflexivity.
    - rewrite <- E. rewrite dec_full by assumption. reflexivity.
  Qed.

  (** Decoding the first [k] bytes of a batch. *)
  Lemma batch_dec_cut b k : ok b -> 0 <= k < zlen (batch_enc rc b) ->
    batch_dec rc rdefault (ztake k (batch_enc rc b)) =
    if k <? front_len b then Err Eof
    else if k =? front_len b then Ok (received_with b rdefault, [])
    else let* (rs, lo) := c_dec rc (ztake (k - front_len b) (c_enc rc (b_recs b))) in Ok (received_with b rs, lo).
  Proof.
    intros H Hk. pose proof (recv_header_ok b H) as HO. rewrite batch_enc_front in *.
    rewrite zlen_app, front_zlen in Hk.
    destruct (k <? front_len b) eqn:E1.
    - rewrite ztake_app_le by (rewrite front_zlen; lia).
      unfold batch_dec, front. rewrite ztake_firstn.
      destruct (Z.lt_ge_cases k 57) as [Hlt|Hge].
      + rewrite firstn_app_le by (rewrite hdr_bytes_length; lia).
        rewrite header_dec_short by (assumption || lia). reflexivity.
      + rewrite firstn_app_ge by (rewrite hdr_bytes_length; lia). rewrite hdr_bytes_length.
        rewrite header_dec_full by assumption. cbn [bind]. unfold received_hdr at 1. rewrite has_schema_crc.
        unfold front_len in E1. pose proof (schema_zlen b) as SZ. unfold schema_bytes in *.
        destruct (has_schema (b_hdr b)) eqn:HS; [|lia].
        unfold u32_codec. cbn [c_dec u_codec]. rewrite take_bytes_short; [reflexivity|].
        rewrite firstn_length, be_enc_length. lia.
    - rewrite ztake_app_ge by (rewrite front_zlen; lia). rewrite front_zlen.
      rewrite batch_dec_front by assumption. unfold records_dec.
      set (cut := ztake (k - front_len b) (c_enc rc (b_recs b))).
      assert (zlen cut = k - front_len b) as Zc by (unfold cut; rewrite zlen_ztake; lia).
      rewrite ztake_all by lia. rewrite zdrop_all by lia.
      destruct (k =? front_len b) eqn:E2.
      + destruct cut; [reflexivity|]. rewrite zlen_cons in Zc. pose proof (zlen_nonneg cut). lia.
      + destruct cut as [|x cut'] eqn:Ec; [rewrite zlen_nil in Zc; lia|].
        rewrite <- Ec. destruct (c_dec rc cut) as [[rs lo]|]; [|reflexivity]. cbn [bind]. rewrite app_nil_r. reflexivity.
  Qed.

  Lemma batch_enc_pos b : 57 <= zlen (batch_enc rc b).
  Proof.
    rewrite batch_enc_front, zlen_app, front_zlen. unfold front_len.
    pose proof (zlen_nonneg (schema_bytes b)). pose proof (zlen_nonneg (c_enc rc (b_recs b))). lia.
  Qed.

  (** The decoding loop over the first [k] bytes of a list of batches. *)
  Fixpoint cut_batches (l : list (batch R)) (k : Z) : res (list (batch R) * bool) :=
    match l with
    | [] => Ok ([], true)
    | b :: l' =>
        if k <=? 0 then Ok ([], true)
        else if zlen (batch_enc rc b) <=? k then
          let* (r, fin) := cut_batches l' (k - zlen (batch_enc rc b)) in Ok (received b :: r, fin)
        else match batch_dec rc rdefault (ztake k (batch_enc rc b)) with
             | Ok (b', []) => Ok ([b'], true)
             | Ok (b', lo) => Err OutOfFuel (* excluded below *)
             | Err Panic => Err Panic
             | Err OutOfFuel => Err OutOfFuel
             | Err _ => Ok ([], false)
             end
    end.

  Lemma rset_loop_cut l : Forall ok l ->
    (forall b k b' lo, In b l -> 0 < k < zlen (batch_enc rc b) ->
       batch_dec rc rdefault (ztake k (batch_enc rc b)) = Ok (b', lo) -> lo = []) ->
    forall k fuel, (Z.to_nat k <= fuel)%nat -> k <= zlen (flat_map (batch_enc rc) l) ->
    rset_loop rc rdefault fuel (ztake k (flat_map (batch_enc rc) l)) = cut_batches l k.
  Proof.
    intros Hok Hlo. induction l as [|b l IH]; intros k fuel Hf Hk.
    - cbn [flat_map]. cbn [ztake cut_batches]. destruct fuel; reflexivity.
    - apply Forall_cons_iff in Hok as [Hb Hl]. cbn [flat_map cut_batches].
      pose proof (batch_enc_pos b) as P57.
      destruct (k <=? 0) eqn:E0.
      { rewrite ztake_neg by lia. destruct fuel; reflexivity. }
      destruct fuel as [|f]; [lia|].
      cbn [flat_map] in Hk. rewrite zlen_app in Hk.
      destruct (zlen (batch_enc rc b) <=? k) eqn:E1.
      + rewrite ztake_app_ge by lia.
        assert (exists x t, batch_enc rc b = x :: t) as (x & t & Ext).
        { destruct (batch_enc rc b) as [|x t]; [rewrite zlen_nil in P57; lia|eauto]. }
        cbn [rset_loop]. rewrite Ext at 1. cbn [app]. rewrite batch_dec_full by assumption.
        rewrite IH; [reflexivity|assumption| |lia|lia].
        intros b0 k0 b' lo Hin. apply Hlo. right. assumption.
      + rewrite ztake_app_le by lia.
        assert (exists x t, ztake k (batch_enc rc b) = x :: t) as (x & t & Ext).
        { pose proof (zlen_ztake k (batch_enc rc b)) as Z1. destruct (ztake k (batch_enc rc b)) as [|x t]; [rewrite zlen_nil in Z1; lia|eauto]. }
        cbn [rset_loop]. rewrite Ext at 1.
        destruct (batch_dec rc rdefault (ztake k (batch_enc rc b))) as [[b' lo]|[]] eqn:E; try reflexivity.
        rewrite (Hlo b k b' lo (or_introl eq_refl) ltac:(lia) E). destruct f; reflexivity.
  Qed.
End BatchLaws.

(** * In-memory and raw record batches *)

Lemma mem_dec_full a : records_ok a -> c_dec memory_codec (c_enc memory_codec a) = Ok (a, []).
Proof. intros H. destruct memory_lawful as (R & _). rewrite <- (app_nil_r (c_enc memory_codec a)). apply R. assumption. Qed.
Lemma mem_size a : records_ok a -> c_size memory_codec a = zlen (c_enc memory_codec a).
Proof. apply memory_lawful. Qed.
Lemma mem_bytes a : records_ok a -> is_bytes (c_enc memory_codec a).
Proof. apply memory_lawful. Qed.
Lemma mem_empty a : records_ok a -> c_enc memory_codec a = [] -> a = [].
Proof.
  intros _ H. exfalso. assert (length (c_enc memory_codec a) = 0%nat) as L by (rewrite H; reflexivity).
  cbn [c_enc memory_codec vec_codec] in L. unfold vec_enc in L. rewrite app_length, be_enc_length in L. lia.
Qed.
Lemma raw_dec_full a : is_bytes a -> c_dec raw_codec (c_enc raw_codec a) = Ok (a, []).
Proof. reflexivity. Qed.
Lemma raw_size a : is_bytes a -> c_size raw_codec a = zlen (c_enc raw_codec a).
Proof. reflexivity. Qed.
Lemma raw_bytes a : is_bytes a -> is_bytes (c_enc raw_codec a).
Proof. exact (fun H => H). Qed.
Lemma raw_empty a : is_bytes a -> c_enc raw_codec a = [] -> a = [].
Proof. exact (fun _ H => H). Qed.

Lemma batch_tail_drop {R} (rc : codec R) b : zdrop 21 (batch_enc rc b) = batch_tail rc b.
Proof.
  unfold batch_enc. rewrite !app_assoc. rewrite zdrop_skipn. apply skipn_app_n.
  rewrite !app_length, !be_enc_length. reflexivity.
Qed.

Lemma arrived_with {R} (rc : codec R) (rdefault : R) (oks : R -> Prop) (b : batch R) rs :
  (forall a, oks a -> c_dec rc (c_enc rc a) = Ok (a, [])) ->
  (forall a, oks a -> c_size rc a = zlen (c_enc rc a)) ->
  (forall a, oks a -> is_bytes (c_enc rc a)) ->
  (forall a, oks a -> c_enc rc a = [] -> a = rdefault) ->
  batch_ok oks (fun a => zlen (c_enc rc a)) b ->
  arrived_head (batch_enc rc b) b (received_with rc b rs).
Proof.
  intros D S B E H. unfold arrived_head. split; [reflexivity|]. split; [repeat split|]. split; [|split].
  - unfold received_with. cbn [b_schema]. intros ->. reflexivity.
  - rewrite batch_tail_drop. reflexivity.
  - unfold received_with. cbn [b_len]. rewrite (calc_len rc rdefault oks D S B E b H), batch_enc_front, zlen_app, front_zlen.
    unfold front_len. lia.
Qed.

Lemma mem_batch_roundtrip b rest : mem_batch_ok b ->
  exists b', batch_dec memory_codec [] (batch_enc memory_codec b ++ rest) = Ok (b', rest)
             /\ arrived (batch_enc memory_codec b) b b'.
Proof.
  intros H. exists (received memory_codec b). split.
  - apply (batch_dec_full memory_codec [] records_ok mem_dec_full mem_size mem_bytes mem_empty). exact H.
  - split; [|reflexivity]. apply (arrived_with memory_codec [] records_ok _ _ mem_dec_full mem_size mem_bytes mem_empty). exact H.
Qed.
Lemma raw_batch_roundtrip b rest : raw_batch_ok b ->
  exists b', batch_dec raw_codec [] (batch_enc raw_codec b ++ rest) = Ok (b', rest)
             /\ arrived (batch_enc raw_codec b) b b'.
Proof.
  intros H. exists (received raw_codec b). split.
  - apply (batch_dec_full raw_codec [] is_bytes raw_dec_full raw_size raw_bytes raw_empty). exact H.
  - split; [|reflexivity]. apply (arrived_with raw_codec [] is_bytes _ _ raw_dec_full raw_size raw_bytes raw_empty). exact H.
Qed.

Lemma batch_size_gap {R} (rc : codec R) (oks : R -> Prop) b :
  (forall a, oks a -> c_size rc a = zlen (c_enc rc a)) ->
  batch_ok oks (fun a => zlen (c_enc rc a)) b ->
  zlen (batch_enc rc b) = batch_size rc b + (if has_schema (b_hdr b) then 4 else 0).
Proof.
  intros S H. rewrite batch_enc_front, zlen_app, front_zlen. unfold front_len, batch_size. rewrite schema_zlen.
  destruct H as (_ & _ & _ & Hr & _). rewrite S by assumption. unfold BATCH_FILE_HEADER_SIZE, BATCH_PREAMBLE_SIZE, BATCH_HEADER_SIZE.
  lia.
Qed.

Lemma mem_batch_size b : mem_batch_ok b ->
  zlen (batch_enc memory_codec b) = batch_size memory_codec b + (if has_schema (b_hdr b) then 4 else 0).
Proof. intros H. eapply batch_size_gap; [exact mem_size|exact H]. Qed.
Lemma raw_batch_size b : raw_batch_ok b ->
  zlen (batch_enc raw_codec b) = batch_size raw_codec b + (if has_schema (b_hdr b) then 4 else 0).
Proof. intros H. eapply batch_size_gap; [exact raw_size|exact H]. Qed.

(** * Record sets, complete or cut *)

Section Sets.
  Context {R : Type} (rc : codec R) (rdefault : R) (oks : R -> Prop).
  Hypothesis dec_full : forall a, oks a -> c_dec rc (c_enc rc a) = Ok (a, []).
  Hypothesis size_ok : forall a, oks a -> c_size rc a = zlen (c_enc rc a).
  Hypothesis bytes_ok : forall a, oks a -> is_bytes (c_enc rc a).
  Hypothesis empty_default : forall a, oks a -> c_enc rc a = [] -> a = rdefault.
  (** what a strict, non-empty prefix of encoded records decodes to *)
  Variable Part : R -> R -> Prop.
  Hypothesis part_default : forall a, oks a -> Part a rdefault.
  Hypothesis dec_cut : forall a k, oks a -> 0 < k < zlen (c_enc rc a) ->
    (exists r, c_dec rc (ztake k (c_enc rc a)) = Ok (r, []) /\ Part a r)
    \/ c_dec rc (ztake k (c_enc rc a)) = Err Eof.
  Let ok := batch_ok oks (fun a => zlen (c_enc rc a)).
  Let encl := flat_map (batch_enc rc).

  Lemma batch_cut b k : ok b -> 0 < k < zlen (batch_enc rc b) ->
    (exists r, batch_dec rc rdefault (ztake k (batch_enc rc b)) = Ok (received_with rc b r, []) /\ Part (b_recs b) r)
    \/ batch_dec rc rdefault (ztake k (batch_enc rc b)) = Err Eof.
  Proof.
    intros H Hk. rewrite (batch_dec_cut rc rdefault oks dec_full size_ok bytes_ok empty_default) by (exact H || lia).
    pose proof H as (_ & _ & _ & Hr & _).
    destruct (k <? front_len b) eqn:E1; [right; reflexivity|].
    destruct (k =? front_len b) eqn:E2; [left; eauto|].
    rewrite batch_enc_front, zlen_app, front_zlen in Hk.
    destruct (dec_cut (b_recs b) (k - front_len b) Hr ltac:(lia)) as [(r & E & P)|E]; rewrite E; cbn [bind];
      [left; eauto|right; reflexivity].
  Qed.

  Lemma cut_shape l : Forall ok l -> forall k, 0 <= k <= zlen (encl l) ->
    exists n tail fin, cut_batches rc rdefault l k = Ok (map (received rc) (firstn n l) ++ tail, fin)
      /\ (n <= length l)%nat /\ zlen (encl (firstn n l)) <= k
      /\ (k < zlen (encl (firstn (S n) l)) \/ n = length l)
      /\ (k = zlen (encl (firstn n l)) -> tail = [] /\ fin = true)
      /\ (tail = [] \/ exists b r, nth_error l n = Some b /\ tail = [received_with rc b r] /\ Part (b_recs b) r).
  Proof.
    induction l as [|b l IH]; intros Hok k Hk.
    - exists 0%nat, [], true. cbn in *. repeat split; auto; lia.
    - apply Forall_cons_iff in Hok as [Hb Hl]. cbn [cut_batches].
      pose proof (batch_enc_pos rc rdefault oks dec_full size_ok bytes_ok empty_default b) as P57. unfold encl in *. cbn [flat_map] in Hk. rewrite zlen_app in Hk.
      destruct (k <=? 0) eqn:E0.
      { exists 0%nat, [], true. cbn [firstn map app flat_map length].
        rewrite app_nil_r. rewrite zlen_nil. repeat split; auto; try lia. }
      destruct (zlen (batch_enc rc b) <=? k) eqn:E1.
      + destruct (IH Hl (k - zlen (batch_enc rc b)) ltac:(lia)) as (n & tail & fin & E & Hn & Hle & Hgt & Hex & Ht).
        rewrite E. cbn [bind]. exists (S n), tail, fin.
        split; [reflexivity|]. cbn [length].
        split; [lia|]. split; [cbn [firstn flat_map]; rewrite zlen_app; lia|].
        split. { destruct Hgt as [Hgt|Hgt]; [left|right; lia].
                 remember (S n) as m. cbn [firstn flat_map]. rewrite zlen_app. subst m. lia. }
        split. { intros Hkk. apply Hex. cbn [firstn flat_map] in Hkk. rewrite zlen_app in Hkk. lia. }
        exact Ht.
      + destruct (batch_cut b k Hb ltac:(lia)) as [(r & E & HP)|E]; rewrite E.
        * exists 0%nat, [received_with rc b r], true. cbn [firstn map app flat_map length].
          rewrite app_nil_r, zlen_nil. repeat split; try lia. right. exists b, r. auto.
        * exists 0%nat, [], false. cbn [firstn map app flat_map length].
          rewrite app_nil_r, zlen_nil. repeat split; auto; lia.
  Qed.

  Lemma rset_cut l k rest : Forall ok l -> 0 <= k <= zlen (encl l) -> k < 2 ^ 31 ->
    exists n tail o, rset_dec rc rdefault (be_enc 4 k ++ ztake k (encl l) ++ rest) = Ok (map (received rc) (firstn n l) ++ tail, o)
      /\ (n <= length l)%nat /\ zlen (encl (firstn n l)) <= k
      /\ (k < zlen (encl (firstn (S n) l)) \/ n = length l)
      /\ (k = zlen (encl (firstn n l)) -> tail = [] /\ o = Some rest)
      /\ (tail = [] \/ exists b r, nth_error l n = Some b /\ tail = [received_with rc b r] /\ Part (b_recs b) r).
  Proof.
    intros Hok Hk H31. destruct (cut_shape l Hok k Hk) as (n & tail & fin & E & Hn & Hle & Hgt & Hex & Ht).
    exists n, tail, (if fin then Some rest else None).
    assert (zlen (ztake k (encl l)) = k) as Zk by (rewrite zlen_ztake; lia).
    split; [|split; [exact Hn|split; [exact Hle|split; [exact Hgt|split; [|exact Ht]]]];
             intros Hkk; destruct (Hex Hkk) as [-> ->]; auto].
    unfold rset_dec. change (be_enc 4 k) with (c_enc i32_codec k). unfold i32_codec.
    destruct (s_lawful 4 ltac:(lia)) as (RR & _). rewrite RR.
    2: { unfold in_s. change (2 ^ (8 * Z.of_nat 4 - 1)) with (2 ^ 31). lia. }
    cbn [bind]. rewrite as_usize_id by (change (2 ^ 63) with 9223372036854775808; change (2 ^ 31) with 2147483648 in H31; lia).
    rewrite zlen_app, Zk. pose proof (zlen_nonneg rest).
    replace (k + zlen rest <? k) with false by lia.
    replace (ztake k (ztake k (encl l) ++ rest)) with (ztake k (encl l))
      by (rewrite ztake_app_le by lia; symmetry; apply ztake_all; lia).
    rewrite (zdrop_app_ge k) by lia. rewrite Zk, Z.sub_diag, zdrop_neg by lia.
    rewrite (rset_loop_cut rc rdefault oks dec_full size_ok bytes_ok empty_default l Hok).
    - rewrite E. reflexivity.
    - intros b k0 b' lo Hin Hk0 HE. apply Forall_forall with (x := b) in Hok; [|assumption].
      destruct (batch_cut b k0 Hok Hk0) as [(r & E' & _)|E']; rewrite E' in HE; [congruence|discriminate].
    - rewrite app_length. unfold zlen in Zk. lia.
    - exact (proj2 Hk).
  Qed.
End Sets.

(** Recovering the records of a cut raw payload gives a prefix of them. *)
Lemma prefix_refl {A} (l : list A) : prefix l l.
Proof. induction l; cbn; auto. Qed.
Lemma prefix_ztake {A} k (l : list A) : prefix (ztake k l) l.
Proof.
  revert k. induction l as [|x l IH]; intros k; cbn [ztake]; [exact I|].
  destruct (k <=? 0); cbn; auto.
Qed.

Lemma dec_partial_cut l : Forall rec_ok l -> forall k, 0 <= k ->
  exists l' e, dec_partial (c_dec rec_codec) (length l) (ztake k (flat_map (c_enc rec_codec) l)) = (l', e)
    /\ prefix l' l /\ (e = None \/ e = Some Eof)
    /\ (zlen (flat_map (c_enc rec_codec) l) <= k -> l' = l /\ e = None)
    /\ (k < zlen (flat_map (c_enc rec_codec) l) -> (length l' < length l)%nat).
Proof.
  destruct rec_lawful as (R & _).
  induction l as [|r l IH]; intros H k Hk0.
  - exists [], None. split; [reflexivity|]. split; [exact I|]. split; [auto|]. split; [auto|].
    cbn [flat_map length]. rewrite zlen_nil. lia.
  - apply Forall_cons_iff in H as [Hr Hl]. cbn [length dec_partial flat_map].
    destruct (Z.lt_ge_cases k (zlen (c_enc rec_codec r))) as [Hlt|Hge].
    + rewrite ztake_app_le by lia. rewrite ztake_firstn.
      assert (c_dec rec_codec (firstn (Z.to_nat k) (c_enc rec_codec r)) = Err Eof) as ->.
      { destruct (rec_trunc (eq Eof) eq_refl r (Z.to_nat k) Hr) as (e & <- & E); [|exact E].
        assert (0 < zlen (c_enc rec_codec r)).
        { cbn [c_enc rec_codec]. rewrite zlen_app.
          assert (0 < zlen (varint_encode (zlen (rec_body r)))); [|pose proof (zlen_nonneg (rec_body r)); lia].
          destruct (varint_encode (zlen (rec_body r))) as [|vb vt] eqn:E; [|rewrite zlen_cons; pose proof (zlen_nonneg vt); lia].
          exfalso. destruct Hr as (_ & _ & _ & _ & _ & _ & Hz). pose proof (zlen_nonneg (rec_body r)).
          destruct (varint_laws (zlen (rec_body r))) as (V & _).
          { unfold in_s. change (2 ^ (32 - 1)) with (2 ^ 31). lia. }
          specialize (V []). rewrite E in V. cbn in V. discriminate. }
        unfold zlen in *. lia. }
      exists [], (Some Eof). cbn [prefix length]. repeat split; auto; try lia.
      all: rewrite zlen_app in *; pose proof (zlen_nonneg (flat_map (c_enc rec_codec) l)); lia.
    + rewrite ztake_app_ge by lia. rewrite R by assumption.
      destruct (IH Hl (k - zlen (c_enc rec_codec r)) ltac:(lia)) as (l' & e & E & P & He & Hfull & Hpart).
      rewrite E. exists (r :: l'), e. cbn [prefix length]. rewrite zlen_app.
      split; [reflexivity|]. split; [auto|]. split; [exact He|]. split.
      * intros Hz. destruct Hfull as [-> ->]; [lia|]. auto.
      * intros Hz. specialize (Hpart ltac:(lia)). lia.
Qed.

Lemma memory_records_cut rs k : records_ok rs ->
  exists l, memory_records (ztake k (c_enc memory_codec rs)) = Ok l /\ prefix l rs
    /\ (zlen (c_enc memory_codec rs) <= k -> l = rs)
    /\ (k < zlen (c_enc memory_codec rs) -> rs <> [] -> (length l < length rs)%nat).
Proof.
  intros [Hrs Hl]. cbn [c_enc memory_codec vec_codec]. unfold vec_enc. pose proof (zlen_nonneg rs) as H0.
  change (2 ^ 31) with 2147483648 in *.
  rewrite wrap_u_id by (unfold in_u; change (2 ^ 32) with 4294967296; lia).
  rewrite zlen_app. assert (zlen (be_enc 4 (zlen rs)) = 4) as Z4 by (unfold zlen at 1; rewrite be_enc_length; reflexivity).
  rewrite Z4. unfold memory_records.
  destruct (Z.lt_ge_cases k 4) as [Hlt|Hge].
  - rewrite ztake_app_le by lia. rewrite ztake_firstn.
    cbn [c_dec i32_codec s_codec]. rewrite take_bytes_short by (rewrite firstn_length, be_enc_length; lia).
    cbn [bind]. exists []. split; [reflexivity|]. split; [exact I|].
    pose proof (zlen_nonneg (flat_map (c_enc rec_codec) rs)).
    split; [lia|]. intros _ Hne. destruct rs; [congruence|cbn; lia].
  - rewrite ztake_app_ge by lia. rewrite Z4. unfold i32_codec.
    destruct (s_lawful 4 ltac:(lia)) as (RR & _).
    change (be_enc 4 (zlen rs)) with (c_enc (s_codec 4) (zlen rs)). rewrite RR.
    2: { unfold in_s. change (2 ^ (8 * Z.of_nat 4 - 1)) with 2147483648. lia. }
    destruct (zlen rs <? 1) eqn:E.
    + assert (rs = []) as -> by (destruct rs; [reflexivity|rewrite zlen_cons in E; pose proof (zlen_nonneg rs); lia]).
      exists []. cbn. repeat split; auto. intros _ Hne. congruence.
    + unfold zlen at 1. rewrite Nat2Z.id.
      destruct (dec_partial_cut rs Hrs (k - 4) ltac:(lia)) as (l' & e & -> & P & He & Hfull & Hpart).
      exists l'. destruct He as [-> | ->]; (split; [reflexivity|]; split; [exact P|]; split;
        [intros; apply Hfull; lia|intros; apply Hpart; lia]).
Qed.

Definition mem_part (a r : list rec) : Prop := r = [].
Definition raw_part (a r : bytes) : Prop := exists j, r = ztake j a.

Lemma mem_set_cut l k rest : Forall mem_batch_ok l ->
  0 <= k <= zlen (flat_map (batch_enc memory_codec) l) -> k < 2 ^ 31 ->
  exists n tail o,
    rset_dec memory_codec [] (be_enc 4 k ++ ztake k (flat_map (batch_enc memory_codec) l) ++ rest)
      = Ok (map (received memory_codec) (firstn n l) ++ tail, o)
    /\ (n <= length l)%nat /\ zlen (flat_map (batch_enc memory_codec) (firstn n l)) <= k
    /\ (k < zlen (flat_map (batch_enc memory_codec) (firstn (S n) l)) \/ n = length l)
    /\ (k = zlen (flat_map (batch_enc memory_codec) (firstn n l)) -> tail = [] /\ o = Some rest)
    /\ (tail = [] \/ exists b r, nth_error l n = Some b /\ tail = [received_with memory_codec b r] /\ mem_part (b_recs b) r).
Proof.
  intros. apply (rset_cut memory_codec [] records_ok mem_dec_full mem_size mem_bytes mem_empty mem_part); auto.
  - intros a _. reflexivity.
  - intros a k0 Ha Hk. right. destruct (memory_trunc a (Z.to_nat k0) Ha) as (e & <- & E).
    + unfold zlen in Hk. lia.
    + rewrite ztake_firstn. exact E.
Qed.
Lemma raw_set_cut l k rest : Forall raw_batch_ok l ->
  0 <= k <= zlen (flat_map (batch_enc raw_codec) l) -> k < 2 ^ 31 ->
  exists n tail o,
    rset_dec raw_codec [] (be_enc 4 k ++ ztake k (flat_map (batch_enc raw_codec) l) ++ rest)
      = Ok (map (received raw_codec) (firstn n l) ++ tail, o)
    /\ (n <= length l)%nat /\ zlen (flat_map (batch_enc raw_codec) (firstn n l)) <= k
    /\ (k < zlen (flat_map (batch_enc raw_codec) (firstn (S n) l)) \/ n = length l)
    /\ (k = zlen (flat_map (batch_enc raw_codec) (firstn n l)) -> tail = [] /\ o = Some rest)
    /\ (tail = [] \/ exists b r, nth_error l n = Some b /\ tail = [received_with raw_codec b r] /\ raw_part (b_recs b) r).
Proof.
  intros. apply (rset_cut raw_codec [] is_bytes raw_dec_full raw_size raw_bytes raw_empty raw_part); auto.
  - intros a _. exists 0. symmetry. apply ztake_neg. lia.
  - intros a k0 Ha Hk. left. exists (ztake k0 a). split; [reflexivity|]. exists k0. reflexivity.
Qed.

Lemma F2_received {R} (rc : codec R) (rdefault : R) (oks : R -> Prop) l :
  (forall a, oks a -> c_dec rc (c_enc rc a) = Ok (a, [])) ->
  (forall a, oks a -> c_size rc a = zlen (c_enc rc a)) ->
  (forall a, oks a -> is_bytes (c_enc rc a)) ->
  (forall a, oks a -> c_enc rc a = [] -> a = rdefault) ->
  Forall (batch_ok oks (fun a => zlen (c_enc rc a))) l ->
  Forall2 (fun b b' => arrived (batch_enc rc b) b b') l (map (received rc) l).
Proof.
  intros D S B E. induction 1 as [|b l Hb Hl IH]; cbn [map]; constructor; [|exact IH].
  split; [|reflexivity]. apply (arrived_with rc rdefault oks _ _ D S B E). exact Hb.
Qed.
Lemma Forall_firstn {A} (P : A -> Prop) n l : Forall P l -> Forall P (firstn n l).
Proof. intros H. revert n. induction H; intros [|n]; cbn; auto. Qed.
Lemma Forall_nth {A} (P : A -> Prop) n l b : Forall P l -> nth_error l n = Some b -> P b.
Proof. intros H E. apply nth_error_In in E. rewrite Forall_forall in H. auto. Qed.

Lemma mem_set_cut_arrived l k rest : Forall mem_batch_ok l ->
  0 <= k <= zlen (flat_map (batch_enc memory_codec) l) -> k < 2 ^ 31 ->
  exists n whole tail o,
    rset_dec memory_codec [] (be_enc 4 k ++ ztake k (flat_map (batch_enc memory_codec) l) ++ rest) = Ok (whole ++ tail, o)
    /\ (n <= length l)%nat
    /\ Forall2 (fun b b' => arrived (batch_enc memory_codec b) b b') (firstn n l) whole
    /\ zlen (flat_map (batch_enc memory_codec) (firstn n l)) <= k
    /\ (k < zlen (flat_map (batch_enc memory_codec) (firstn (S n) l)) \/ n = length l)
    /\ (k = zlen (flat_map (batch_enc memory_codec) (firstn n l)) -> tail = [] /\ o = Some rest)
    /\ (tail = [] \/ exists b b', nth_error l n = Some b /\ tail = [b']
                      /\ arrived_head (batch_enc memory_codec b) b b' /\ b_recs b' = []).
Proof.
  intros H Hk H31. destruct (mem_set_cut l k rest H Hk H31) as (n & tail & o & E & A1 & A2 & A3 & A4 & A5).
  exists n, (map (received memory_codec) (firstn n l)), tail, o.
  split; [exact E|]. split; [exact A1|]. split.
  { apply (F2_received memory_codec [] records_ok _ mem_dec_full mem_size mem_bytes mem_empty).
    apply Forall_firstn. exact H. }
  split; [exact A2|]. split; [exact A3|]. split; [exact A4|].
  destruct A5 as [->|(b & r & En & -> & P)]; [left; reflexivity|right].
  exists b, (received_with memory_codec b r). split; [exact En|]. split; [reflexivity|].
  split; [|exact P].
  apply (arrived_with memory_codec [] records_ok _ _ mem_dec_full mem_size mem_bytes mem_empty).
  exact (Forall_nth _ _ _ _ H En).
Qed.
Lemma raw_set_cut_arrived l k rest : Forall raw_batch_ok l ->
  0 <= k <= zlen (flat_map (batch_enc raw_codec) l) -> k < 2 ^ 31 ->
  exists n whole tail o,
    rset_dec raw_codec [] (be_enc 4 k ++ ztake k (flat_map (batch_enc raw_codec) l) ++ rest) = Ok (whole ++ tail, o)
    /\ (n <= length l)%nat
    /\ Forall2 (fun b b' => arrived (batch_enc raw_codec b) b b') (firstn n l) whole
    /\ zlen (flat_map (batch_enc raw_codec) (firstn n l)) <= k
    /\ (k < zlen (flat_map (batch_enc raw_codec) (firstn (S n) l)) \/ n = length l)
    /\ (k = zlen (flat_map (batch_enc raw_codec) (firstn n l)) -> tail = [] /\ o = Some rest)
    /\ (tail = [] \/ exists b b', nth_error l n = Some b /\ tail = [b']
                      /\ arrived_head (batch_enc raw_codec b) b b' /\ prefix (b_recs b') (b_recs b)).
Proof.
  intros H Hk H31. destruct (raw_set_cut l k rest H Hk H31) as (n & tail & o & E & A1 & A2 & A3 & A4 & A5).
  exists n, (map (received raw_codec) (firstn n l)), tail, o.
  split; [exact E|]. split; [exact A1|]. split.
  { apply (F2_received raw_codec [] is_bytes _ raw_dec_full raw_size raw_bytes raw_empty).
    apply Forall_firstn. exact H. }
  split; [exact A2|]. split; [exact A3|]. split; [exact A4|].
  destruct A5 as [->|(b & r & En & -> & (j & P))]; [left; reflexivity|right].
  exists b, (received_with raw_codec b r). split; [exact En|]. split; [reflexivity|].
  split; [|cbn; subst r; apply prefix_ztake].
  apply (arrived_with raw_codec [] is_bytes _ _ raw_dec_full raw_size raw_bytes raw_empty).
  exact (Forall_nth _ _ _ _ H En).
Qed.

Lemma Forall2_firstn_all {A B} (P : A -> B -> Prop) l l' : Forall2 P (firstn (length l) l) l' -> Forall2 P l l'.
Proof. rewrite firstn_all. exact (fun H => H). Qed.

Lemma batch_enc_longer {R} (rc : codec R) b : 0 < zlen (batch_enc rc b).
Proof. rewrite batch_enc_front, zlen_app, front_zlen. unfold front_len. pose proof (zlen_nonneg (schema_bytes b)). pose proof (zlen_nonneg (c_enc rc (b_recs b))). lia. Qed.

Lemma enc_firstn_lt {R} (rc : codec R) (l : list (batch R)) n : (n < length l)%nat ->
  zlen (flat_map (batch_enc rc) (firstn (S n) l)) <= zlen (flat_map (batch_enc rc) l).
Proof.
  intros _. rewrite <- (firstn_skipn (S n) l) at 2. rewrite flat_map_app, zlen_app.
  pose proof (zlen_nonneg (flat_map (batch_enc rc) (skipn (S n) l))). lia.
Qed.

Lemma mem_set_roundtrip l rest : Forall mem_batch_ok l -> zlen (flat_map (batch_enc memory_codec) l) < 2 ^ 31 ->
  exists l', rset_dec memory_codec [] (rset_enc memory_codec l ++ rest) = Ok (l', Some rest)
    /\ Forall2 (fun b b' => arrived (batch_enc memory_codec b) b b') l l'.
Proof.
  intros H H31. set (k := zlen (flat_map (batch_enc memory_codec) l)) in *.
  pose proof (zlen_nonneg (flat_map (batch_enc memory_codec) l)) as H0. fold k in H0.
  destruct (mem_set_cut_arrived l k rest H ltac:(lia) H31) as (n & whole & tail & o & E & A1 & F & A2 & A3 & A4 & A5).
  assert (n = length l) as ->.
  { destruct A3 as [A3|A3]; [|exact A3].
    destruct (Nat.eq_dec n (length l)); [assumption|].
    pose proof (enc_firstn_lt memory_codec l n ltac:(lia)). fold k in H1. lia. }
  rewrite firstn_all in A4. destruct (A4 eq_refl) as [-> ->]. rewrite app_nil_r in E.
  exists whole. split; [|apply Forall2_firstn_all; exact F].
  unfold rset_enc. fold k. rewrite wrap_s_id by (try lia; unfold in_s; change (2 ^ (32 - 1)) with (2 ^ 31); lia).
  rewrite <- app_assoc. etransitivity; [|exact E]. rewrite (ztake_all k) by (unfold k; lia). reflexivity.
Qed.
Lemma raw_set_roundtrip l rest : Forall raw_batch_ok l -> zlen (flat_map (batch_enc raw_codec) l) < 2 ^ 31 ->
  exists l', rset_dec raw_codec [] (rset_enc raw_codec l ++ rest) = Ok (l', Some rest)
    /\ Forall2 (fun b b' => arrived (batch_enc raw_codec b) b b') l l'.
Proof.
  intros H H31. set (k := zlen (flat_map (batch_enc raw_codec) l)) in *.
  pose proof (zlen_nonneg (flat_map (batch_enc raw_codec) l)) as H0. fold k in H0.
  destruct (raw_set_cut_arrived l k rest H ltac:(lia) H31) as (n & whole & tail & o & E & A1 & F & A2 & A3 & A4 & A5).
  assert (n = length l) as ->.
  { destruct A3 as [A3|A3]; [|exact A3].
    destruct (Nat.eq_dec n (length l)); [assumption|].
    pose proof (enc_firstn_lt raw_codec l n ltac:(lia)). fold k in H1. lia. }
  rewrite firstn_all in A4. destruct (A4 eq_refl) as [-> ->]. rewrite app_nil_r in E.
  exists whole. split; [|apply Forall2_firstn_all; exact F].
  unfold rset_enc. fold k. rewrite wrap_s_id by (try lia; unfold in_s; change (2 ^ (32 - 1)) with (2 ^ 31); lia).
  rewrite <- app_assoc. etransitivity; [|exact E]. rewrite (ztake_all k) by (unfold k; lia). reflexivity.
Qed.

(** * Raw transport followed by decoding of the records *)

Lemma to_raw_ok b : mem_batch_ok b -> raw_batch_ok (to_raw b).
Proof.
  intros (A & B & C & D & E). unfold raw_batch_ok, batch_ok, to_raw. cbn [b_base b_schema b_hdr b_recs].
  repeat split; try assumption; try apply A; try apply B; try apply C. apply mem_bytes. exact D.
Qed.
Lemma to_memory_prefix b (b' : batch bytes) rs : mem_batch_ok b ->
  (exists j, b_recs b' = ztake j (c_enc memory_codec (b_recs b))) -> rs = b_recs b ->
  exists m, to_memory b' = Ok m /\ prefix (b_recs m) rs /\ b_base m = b_base b' /\ h_first_ts (b_hdr m) = h_first_ts (b_hdr b')
   /\ (b_recs b' = c_enc memory_codec (b_recs b) -> b_recs m = b_recs b).
Proof.
  intros (_ & _ & _ & H & _) (j & E) ->. destruct (memory_records_cut (b_recs b) j H) as (l & EL & P & F & _).
  assert (memory_records (b_recs b') = Ok l) as E2 by (rewrite E; exact EL).
  unfold to_memory. rewrite E2. cbn [bind]. eexists. split; [reflexivity|]. cbn [b_recs b_base b_hdr].
  split; [exact P|]. split; [reflexivity|]. split; [reflexivity|]. intros Q. apply F.
  rewrite Q in E. apply (f_equal zlen) in E. rewrite zlen_ztake in E.
  assert (0 < zlen (c_enc memory_codec (b_recs b))); [|lia].
  cbn [c_enc memory_codec vec_codec]. unfold vec_enc. rewrite zlen_app. unfold zlen at 1. rewrite be_enc_length. pose proof (zlen_nonneg (flat_map (c_enc rec_codec) (b_recs b))). lia.
Qed.
Lemma prefix_app {A} (a b c : list A) : prefix b c -> prefix (a ++ b) (a ++ c).
Proof. intros H. induction a; cbn; auto. Qed.
Lemma prefix_app_r {A} (a b c : list A) : prefix a b -> prefix a (b ++ c).
Proof. revert b. induction a as [|x a IH]; intros [|y b]; cbn; try tauto. intros [-> H]. auto. Qed.

(** exactly what arrives of the records when [to_raw] batches are cut *)
Lemma raw_records_cut l k rest : Forall mem_batch_ok l ->
  0 <= k <= zlen (flat_map (batch_enc raw_codec) (map to_raw l)) -> k < 2 ^ 31 ->
  exists got o mem,
    rset_dec raw_codec [] (be_enc 4 k ++ ztake k (flat_map (batch_enc raw_codec) (map to_raw l)) ++ rest) = Ok (got, o)
    /\ all_ok to_memory got = Ok mem
    /\ prefix (flat_map log_records mem) (flat_map log_records l)
    /\ (k = zlen (flat_map (batch_enc raw_codec) (map to_raw l)) -> flat_map log_records mem = flat_map log_records l).
Proof.
  intros H Hk H31.
  assert (Forall raw_batch_ok (map to_raw l)) as HR.
  { clear -H. induction H; cbn [map]; constructor; auto using to_raw_ok. }
  destruct (raw_set_cut (map to_raw l) k rest HR Hk H31) as (n & tail & o & E & A1 & A2 & A3 & A4 & A5).
  assert (forall l, Forall mem_batch_ok l -> exists mem, all_ok to_memory (map (received raw_codec) (map to_raw l)) = Ok mem
            /\ flat_map log_records mem = flat_map log_records l) as W.
  { clear. induction 1 as [|b l Hb Hl (mem & E & F)]; [exists []; auto|].
    cbn [map all_ok].
    destruct (to_memory_prefix b (received raw_codec (to_raw b)) (b_recs b) Hb) as (m & Em & _ & Bm & _ & R).
    - exists (zlen (c_enc memory_codec (b_recs b))). symmetry. apply ztake_all. apply Z.le_refl.
    - reflexivity.
    - rewrite Em. cbn [bind]. rewrite E. cbn [bind]. exists (m :: mem). split; [reflexivity|].
      cbn [flat_map]. rewrite F. f_equal. unfold log_records. rewrite R by reflexivity. rewrite Bm. reflexivity. }
  destruct (W (firstn n l) (Forall_firstn _ _ _ H)) as (mw & EW & FW).
  rewrite firstn_map in E.
  assert (forall (a b : list (batch bytes)) ma mb, all_ok to_memory a = Ok ma -> all_ok to_memory b = Ok mb ->
            all_ok to_memory (a ++ b) = Ok (ma ++ mb)) as AP.
  { clear. induction a as [|x a IH]; cbn [all_ok app]; intros b ma mb Ha Hb.
    - injection Ha as <-. exact Hb.
    - destruct (to_memory x) as [m|]; cbn [bind] in *; [|discriminate].
      destruct (all_ok to_memory a) as [r|] eqn:Er; cbn [bind] in *; [|discriminate].
      injection Ha as <-. rewrite (IH b r mb eq_refl Hb). reflexivity. }
  assert (k = zlen (flat_map (batch_enc raw_codec) (map to_raw l)) -> n = length l) as NL.
  { intros Ek. destruct A3 as [A3|A3]; [|rewrite map_length in A3; exact A3].
    destruct (Nat.eq_dec n (length l)); [assumption|]. rewrite map_length in A1.
    pose proof (enc_firstn_lt raw_codec (map to_raw l) n ltac:(rewrite map_length; lia)). lia. }
  destruct A5 as [->|(rb & r & En & -> & (j & P))].
  - exists (map (received raw_codec) (map to_raw (firstn n l)) ++ []), o, mw. split; [exact E|].
    rewrite app_nil_r. split; [exact EW|]. rewrite FW. split.
    + rewrite <- (firstn_skipn n l) at 2. rewrite flat_map_app. apply prefix_app_r, prefix_refl.
    + intros Ek. rewrite (NL Ek), firstn_all. reflexivity.
  - rewrite nth_error_map in En. destruct (nth_error l n) as [b|] eqn:Eb; [|discriminate]. cbn in En. injection En as <-.
    pose proof (Forall_nth _ _ _ _ H Eb) as Hb.
    destruct (to_memory_prefix b (received_with raw_codec (to_raw b) r) (b_recs b) Hb) as (m & Em & Pm & Bm & _ & R).
    + exists j. cbn [received_with b_recs]. rewrite P. reflexivity.
    + reflexivity.
    + exists (map (received raw_codec) (map to_raw (firstn n l)) ++ [received_with raw_codec (to_raw b) r]), o, (mw ++ [m]).
      split; [exact E|]. split.
      { apply AP; [exact EW|]. cbn [all_ok]. rewrite Em. reflexivity. }
      rewrite flat_map_app, FW. split.
      * rewrite <- (firstn_skipn n l) at 2. rewrite flat_map_app. apply prefix_app.
        destruct (skipn n l) as [|b' l'] eqn:Sk.
        { exfalso. assert (length (skipn n l) = 0%nat) as Z0 by (rewrite Sk; reflexivity). rewrite skipn_length in Z0.
          assert (nth_error l n <> None) as NN by congruence. apply nth_error_Some in NN. lia. }
        assert (b' = b) as ->.
        { rewrite <- (firstn_skipn n l) in Eb. rewrite Sk in Eb.
          assert (nth_error l n <> None) as NN by (rewrite <- (firstn_skipn n l), Sk; congruence).
          apply nth_error_Some in NN. rewrite nth_error_app2 in Eb by (rewrite firstn_length; lia).
          rewrite firstn_length in Eb. replace (n - Nat.min n (length l))%nat with 0%nat in Eb by lia.
          cbn in Eb. congruence. }
        cbn [flat_map app]. rewrite app_nil_r. apply prefix_app_r. unfold log_records. rewrite Bm. cbn [received_with b_base].
        clear -Pm. change (b_base (to_raw b)) with (b_base b). revert Pm. generalize (b_recs m) (b_recs b) (b_base b).
        induction l as [|x l IH]; intros [|y l0] z; cbn; try tauto. intros [-> Q]. split; [reflexivity|]. apply IH. exact Q.
      * intros Ek. specialize (NL Ek). exfalso. assert (nth_error l n <> None) as NN by congruence.
        apply nth_error_Some in NN. lia.
Qed.

(** * Refutations *)

Definition demo_rec (o v : Z) : rec := mkRec 0 0 o None [v] 0.
Definition demo_batch (base : Z) : batch (list rec) :=
  mkBatch base 0 (with_last_delta default_header 1) 0 [demo_rec 0 97; demo_rec 1 98].
Definition demo_schema_batch : batch (list rec) := set_schema_id (demo_batch 5) 42.

Ltac closed_range := unfold in_s, in_u; vm_compute; split; congruence.
Lemma demo_recs_ok : records_ok [demo_rec 0 97; demo_rec 1 98].
Proof.
  split; [|vm_compute; reflexivity].
  constructor; [|constructor; [|constructor]]; unfold rec_ok;
    (split; [closed_range|]; split; [closed_range|]; split; [closed_range|]; split; [closed_range|];
     split; [split; [repeat constructor; discriminate|vm_compute; reflexivity]|];
     split; [exact I|vm_compute; reflexivity]).
Qed.
Lemma plain_header_ok d : in_s 32 d -> header_ok (with_last_delta default_header d).
Proof.
  intros H. unfold header_ok.
  split; [closed_range|]. split; [closed_range|]. split; [closed_range|]. split; [exact H|].
  repeat (split; [closed_range|]). closed_range.
Qed.
Lemma demo_batch_ok : mem_batch_ok (demo_batch 5).
Proof.
  split; [closed_range|]. split; [closed_range|]. split; [apply plain_header_ok; closed_range|].
  split; [apply demo_recs_ok|vm_compute; reflexivity].
Qed.
Lemma demo_schema_batch_ok : mem_batch_ok demo_schema_batch.
Proof.
  split; [closed_range|]. split; [closed_range|]. split.
  { pose proof (plain_header_ok 1 ltac:(closed_range)) as (H1 & H2 & H3 & H). split; [exact H1|]. split; [exact H2|].
    split; [closed_range|exact H]. }
  split; [apply demo_recs_ok|vm_compute; reflexivity].
Qed.

Lemma batch_size_refuted : exists b, mem_batch_ok b /\ batch_size memory_codec b <> zlen (batch_enc memory_codec b).
Proof. exists demo_schema_batch. split; [apply demo_schema_batch_ok|vm_compute; discriminate]. Qed.

(** the fetch path: the second record of the only batch is cut off *)
Lemma raw_cut_loses_refuted : exists l k got o mem next off r,
  Forall mem_batch_ok l /\ 0 <= k <= zlen (flat_map (batch_enc raw_codec) (map to_raw l))
  /\ rset_dec raw_codec [] (be_enc 4 k ++ ztake k (flat_map (batch_enc raw_codec) (map to_raw l))) = Ok (got, o)
  /\ all_ok to_memory got = Ok mem
  /\ rset_last_offset got = Some next
  /\ In (off, r) (flat_map log_records l) /\ off < next
  /\ ~ In off (map fst (flat_map log_records mem)).
Proof.
  exists [demo_batch 5], 71. do 2 eexists. exists [mkBatch 5 57 (b_hdr (received memory_codec (demo_batch 5))) 0 [demo_rec 0 97]].
  exists 7, 6, (demo_rec 1 98).
  split; [repeat constructor; apply demo_batch_ok|].
  split; [vm_compute; intuition congruence|].
  split; [vm_compute; reflexivity|]. split; [vm_compute; reflexivity|].
  split; [vm_compute; reflexivity|]. split; [vm_compute; tauto|]. split; [lia|].
  vm_compute. intuition congruence.
Qed.
Lemma mem_cut_loses_refuted : exists l k got o next off r,
  Forall mem_batch_ok l /\ 0 <= k <= zlen (flat_map (batch_enc memory_codec) l)
  /\ rset_dec memory_codec [] (be_enc 4 k ++ ztake k (flat_map (batch_enc memory_codec) l)) = Ok (got, o)
  /\ rset_last_offset got = Some next
  /\ In (off, r) (flat_map log_records l) /\ off < next
  /\ ~ In off (map fst (flat_map log_records got)).
Proof.
  exists [demo_batch 5], 57. do 2 eexists. exists 7, 5, (demo_rec 0 97).
  split; [repeat constructor; apply demo_batch_ok|].
  split; [vm_compute; intuition congruence|].
  split; [vm_compute; reflexivity|].
  split; [vm_compute; reflexivity|]. split; [vm_compute; tauto|]. split; [lia|].
  vm_compute. intuition congruence.
Qed.

(** * Attribute flags *)

Lemma land_low3 c : 0 <= c <= 4 -> Z.land c 7 = c.
Proof. intros H. change 7 with (Z.ones 3). rewrite Z.land_ones by lia. apply Z.mod_small. lia. Qed.
Lemma compression_set h c : 0 <= c <= 4 -> get_compression (set_compression h c) = Ok c.
Proof.
  intros H. unfold get_compression, set_compression, with_attr, ATTR_COMPRESSION_CODEC_MASK. cbn [h_attr].
  rewrite (land_low3 c H), Z.land_lor_distr_l, <- Z.land_assoc.
  change (Z.land (Z.lnot 7) 7) with 0. rewrite Z.land_0_r, Z.lor_0_l, (land_low3 c H).
  replace (c <=? 4) with true by lia. reflexivity.
Qed.
Lemma compression_keeps_bits h c n : 3 <= n -> Z.testbit (h_attr (set_compression h c)) n = Z.testbit (h_attr h) n.
Proof.
  intros H. unfold set_compression, with_attr, ATTR_COMPRESSION_CODEC_MASK. cbn [h_attr].
  rewrite Z.lor_spec, !Z.land_spec, Z.lnot_spec by lia.
  change 7 with (Z.ones 3). rewrite Z.ones_spec_high by lia. destruct (Z.testbit _ _); destruct (Z.testbit c n); reflexivity.
Qed.
Lemma has_schema_bit h : has_schema h = Z.testbit (h_attr h) 4.
Proof.
  unfold has_schema, ATTR_SCHEMA_PRESENT. change 16 with (2 ^ 4).
  destruct (Z.testbit (h_attr h) 4) eqn:E.
  - destruct (Z.land (h_attr h) (2 ^ 4) =? 0) eqn:Q; [|reflexivity].
    assert (Z.testbit (Z.land (h_attr h) (2 ^ 4)) 4 = true) as B.
    { rewrite Z.land_spec, E, Z.pow2_bits_true by lia. reflexivity. }
    apply Z.eqb_eq in Q. rewrite Q, Z.bits_0 in B. discriminate.
  - replace (Z.land (h_attr h) (2 ^ 4)) with 0; [reflexivity|].
    symmetry. apply Z.bits_inj_iff'. intros n Hn. rewrite Z.land_spec, Z.bits_0.
    destruct (Z.eq_dec n 4) as [->|Hne]; [rewrite E; reflexivity|].
    rewrite Z.pow2_bits_false by lia. apply andb_false_r.
Qed.
Lemma schema_flag_bits h n : 0 <= n -> Z.testbit (h_attr (set_schema_flag h)) n = (Z.testbit (h_attr h) n || (n =? 4))%bool.
Proof.
  intros Hn. unfold set_schema_flag, with_attr, ATTR_SCHEMA_PRESENT. cbn [h_attr]. rewrite Z.lor_spec.
  change 16 with (2 ^ 4). f_equal. destruct (Z.eq_dec n 4) as [->|Hne].
  - rewrite Z.pow2_bits_true by lia. reflexivity.
  - rewrite Z.pow2_bits_false by lia. lia.
Qed.
Lemma schema_keeps_compression h : get_compression (set_schema_flag h) = get_compression h.
Proof.
  unfold get_compression. replace (Z.land (h_attr (set_schema_flag h)) ATTR_COMPRESSION_CODEC_MASK)
    with (Z.land (h_attr h) ATTR_COMPRESSION_CODEC_MASK); [reflexivity|].
  unfold set_schema_flag, with_attr, ATTR_COMPRESSION_CODEC_MASK, ATTR_SCHEMA_PRESENT. cbn [h_attr].
  rewrite Z.land_lor_distr_l. change (Z.land 16 7) with 0. rewrite Z.lor_0_r. reflexivity.
Qed.
(** sixteen-bit values are those whose arithmetic shift by 15 is 0 or -1 *)
Lemma s16_shift a : in_s 16 a <-> Z.shiftr a 15 = 0 \/ Z.shiftr a 15 = -1.
Proof.
  unfold in_s. rewrite Z.shiftr_div_pow2 by lia. change (2 ^ (16 - 1)) with 32768. change (2 ^ 15) with 32768. lia.
Qed.
Lemma compression_s16 h c : in_s 16 (h_attr h) -> 0 <= c <= 4 -> in_s 16 (h_attr (set_compression h c)).
Proof.
  intros H Hc. apply s16_shift. apply s16_shift in H.
  unfold set_compression, with_attr, ATTR_COMPRESSION_CODEC_MASK. cbn [h_attr].
  rewrite Z.shiftr_lor, !Z.shiftr_land. change (Z.shiftr (Z.lnot 7) 15) with (-1). change (Z.shiftr 7 15) with 0.
  rewrite Z.land_0_r, Z.lor_0_r, Z.land_m1_r. exact H.
Qed.
Lemma schema_s16 h : in_s 16 (h_attr h) -> in_s 16 (h_attr (set_schema_flag h)).
Proof.
  intros H. apply s16_shift. apply s16_shift in H. unfold set_schema_flag, with_attr, ATTR_SCHEMA_PRESENT. cbn [h_attr].
  rewrite Z.shiftr_lor. change (Z.shiftr 16 15) with 0. rewrite Z.lor_0_r. exact H.
Qed.
Lemma flags_independent h : header_ok h ->
  (forall c, 0 <= c <= 4 ->
     get_compression (set_compression h c) = Ok c /\ has_schema (set_compression h c) = has_schema h
     /\ header_ok (set_compression h c))
  /\ get_compression (set_schema_flag h) = get_compression h /\ has_schema (set_schema_flag h) = true
  /\ header_ok (set_schema_flag h).
Proof.
  intros (H1 & H2 & H3 & H4 & H5 & H6 & H7 & H8 & H9). split; [intros c Hc; split; [|split]|split; [|split]].
  - apply compression_set. exact Hc.
  - rewrite !has_schema_bit. apply compression_keeps_bits. lia.
  - unfold header_ok. pose proof (compression_s16 h c H3 Hc). tauto.
  - apply schema_keeps_compression.
  - rewrite has_schema_bit, schema_flag_bits by lia. apply orb_true_r.
  - unfold header_ok. pose proof (schema_s16 h H3). tauto.
Qed.
Lemma other_bits_kept h n : 0 <= n ->
  (forall c, 3 <= n -> Z.testbit (h_attr (set_compression h c)) n = Z.testbit (h_attr h) n)
  /\ (n <> 4 -> Z.testbit (h_attr (set_schema_flag h)) n = Z.testbit (h_attr h) n).
Proof.
  intros Hn. split; [intros c H; apply compression_keeps_bits; exact H|].
  intros H. rewrite schema_flag_bits by lia. replace (n =? 4) with false by lia. apply orb_false_r.
Qed.
(** a schema batch is decoded back with its schema id, and setting it on the
    wire keeps the compression announced *)
Lemma schema_id_roundtrip b sid rest : mem_batch_ok b -> in_u 32 sid ->
  exists b', batch_dec memory_codec [] (batch_enc memory_codec (set_schema_id b sid) ++ rest) = Ok (b', rest)
    /\ b_schema b' = sid /\ has_schema (b_hdr b') = true /\ get_compression (b_hdr b') = get_compression (b_hdr b)
    /\ b_recs b' = b_recs b.
Proof.
  intros (H1 & H2 & H3 & H4 & H5) Hs. destruct (flags_independent _ H3) as (_ & F1 & F2 & F3).
  assert (mem_batch_ok (set_schema_id b sid)) as Hb by (repeat split; cbn [set_schema_id b_base b_schema b_hdr b_recs]; try apply H1; try apply Hs; try apply F3; try apply H4; exact H5).
  destruct (mem_batch_roundtrip _ rest Hb) as (b' & E & (A1 & A2 & A3 & _) & A4).
  exists b'. split; [exact E|]. cbn [set_schema_id b_base b_schema b_hdr b_recs] in *.
  destruct A2 as (_ & _ & A2 & _).
  split; [apply A3; exact F2|]. split; [|split; [|exact A4]].
  - unfold has_schema in *. rewrite A2. exact F2.
  - unfold get_compression in *. rewrite A2. exact F1.
Qed.

(** * Offsets seen by a consumer *)

Lemma numbered_from i l : map r_off (number_from i l) = map (fun k => i + Z.of_nat k) (seq 0 (length l)).
Proof.
  revert i. induction l as [|r l IH]; intros i; [reflexivity|]. cbn [number_from map length seq].
  f_equal; [cbn; lia|]. rewrite IH, <- seq_shift, map_map. apply map_ext. intros. lia.
Qed.
Lemma number_from_length i l : length (number_from i l) = length l.
Proof. revert i. induction l; intros; cbn; auto. Qed.
Lemma number_from_numbered l : numbered (number_from 0 l).
Proof. unfold numbered. rewrite numbered_from, number_from_length. apply map_ext. lia. Qed.
Lemma consumer_from_seen base p ts l : forall i,
  map r_off l = map (fun k => i + Z.of_nat k) (seq 0 (length l)) ->
  map (fun c => (cr_offset c, cr_rec c)) (consumer_records_from base p ts i l) = map (fun r => (base + r_off r, r)) l.
Proof.
  induction l as [|r l IH]; intros i H; [reflexivity|]. cbn [map length seq] in H. injection H as H0 H.
  cbn [consumer_records_from map cr_offset cr_rec]. f_equal; [f_equal; lia|]. apply IH. rewrite H.
  rewrite <- seq_shift, map_map. apply map_ext. intros. lia.
Qed.
Lemma consumer_sees_log b p : numbered (b_recs b) ->
  map (fun c => (cr_offset c, cr_rec c)) (into_consumer_records b p) = log_records b.
Proof.
  intros H. apply consumer_from_seen. rewrite H. apply map_ext. lia.
Qed.
Lemma built_numbered l : numbered (b_recs (batch_from l)).
Proof. apply number_from_numbered. Qed.
Lemma added_numbered b l : numbered (b_recs (add_records b l)).
Proof. apply number_from_numbered. Qed.
Lemma built_last_delta l : l <> [] -> records_len (batch_from l) = zlen l.
Proof.
  intros H. unfold records_len, batch_from. cbn [b_hdr h_last_delta with_last_delta].
  unfold zlen at 1 2 3 4 5. rewrite number_from_length. fold (zlen l).
  assert (0 < zlen l) by (destruct l; [congruence|rewrite zlen_cons; pose proof (zlen_nonneg l); lia]).
  replace (0 <? zlen l) with true by lia. replace (zlen l - 1 <? 0) with false by lia. lia.
Qed.
Lemma added_last_delta b l : b_recs b ++ l <> [] -> records_len (add_records b l) = zlen (b_recs b) + zlen l.
Proof.
  intros H. unfold records_len, add_records. cbn [b_hdr h_last_delta with_last_delta].
  assert (0 < zlen (b_recs b ++ l)) by (destruct (b_recs b ++ l); [congruence|rewrite zlen_cons; pose proof (zlen_nonneg l0); lia]).
  replace (zlen (b_recs b ++ l) - 1 <? 0) with false by lia. rewrite zlen_app. lia.
Qed.
Lemma number_from_same l : forall i, map (set_off 0) (number_from i l) = map (set_off 0) l.
Proof. induction l as [|r l IH]; intros i; [reflexivity|]. cbn [number_from map]. rewrite IH. reflexivity. Qed.
Lemma built_counted b l : l <> [] ->
  records_len (batch_from l) = zlen l /\ records_len (add_records b l) = zlen (b_recs b) + zlen l
  /\ map (set_off 0) (b_recs (batch_from l)) = map (set_off 0) l
  /\ map (set_off 0) (b_recs (add_records b l)) = map (set_off 0) (b_recs b ++ l).
Proof.
  intros N. split; [apply built_last_delta; assumption|]. split; [apply added_last_delta; destruct (b_recs b), l; try discriminate; contradiction|].
  split; apply number_from_same.
Qed.
Lemma filtered_refuted : exists b p, map r_off (b_recs b) = [1] /\ records_len b = 2 /\
  map (fun c => (cr_offset c, cr_rec c)) (into_consumer_records b p) <> log_records b.
Proof.
  exists (mkBatch 5 0 (with_last_delta default_header 1) 0 [demo_rec 1 98]), 0.
  split; [reflexivity|]. split; [reflexivity|]. vm_compute. discriminate.
Qed.
Lemma empty_batch_refuted : records_len (batch_from []) = 1 /\ b_recs (batch_from []) = [].
Proof. split; reflexivity. Qed.
