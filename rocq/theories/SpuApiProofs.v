From Verif Require Import Base ListFacts WireModel WireSpec WireProofs RecordModel RecordSpec RecordProofs
  FrameModel FrameSpec FrameProofs VersionModel VersionSpec VersionProofs VersionClaims FileModel FileSpec FileProofs FileClaims.
From Verif Require Import MessageModel SpuApiModel SpuApiSpec.

(** ** Values that arrive up to a relation *)
Definition carried {A} (c : codec A) (ok : A -> Prop) (R : A -> A -> Prop) : Prop :=
  forall a rest, ok a -> exists b, c_dec c (c_enc c a ++ rest) = Ok (b, rest) /\ R a b.

Lemma lawful_carried {A} (c : codec A) ok : lawful c ok -> carried c ok (fun a b => b = a).
Proof. intros (R & _) a rest H. exists a. rewrite R by exact H. auto. Qed.
Lemma arrives_carried {A} (c : codec A) ok f : arrives_as c c ok f -> carried c ok (fun a b => b = f a).
Proof. intros R a rest H. exists (f a). rewrite R by exact H. auto. Qed.
Lemma pair_carried {A B} (ca : codec A) (cb : codec B) oka okb Ra Rb : carried ca oka Ra -> carried cb okb Rb ->
  carried (pair_codec ca cb) (fun p => oka (fst p) /\ okb (snd p)) (fun p q => Ra (fst p) (fst q) /\ Rb (snd p) (snd q)).
Proof.
  intros HA HB [a b] rest [Ha Hb]. cbn [c_enc c_dec pair_codec fst snd] in *. rewrite <- app_assoc.
  destruct (HA a (c_enc cb b ++ rest) Ha) as (a' & Ea & Xa). rewrite Ea. cbn [bind].
  destruct (HB b rest Hb) as (b' & Eb & Xb). rewrite Eb. exists (a', b'). auto.
Qed.
Lemma times_carried {A} (c : codec A) ok R l rest : carried c ok R -> Forall ok l ->
  exists l', dec_times (c_dec c) (length l) (flat_map (c_enc c) l ++ rest) = Ok (l', rest) /\ Forall2 R l l'.
Proof.
  intros HC. induction 1 as [|a l Ha Hl IH]; [exists []; split; [reflexivity|constructor]|].
  cbn [length dec_times flat_map]. rewrite <- app_assoc.
  destruct (HC a (flat_map (c_enc c) l ++ rest) Ha) as (b & Eb & Xb). rewrite Eb. cbn [bind].
  destruct IH as (l' & E & X). rewrite E. exists (b :: l'). split; [reflexivity|constructor; assumption].
Qed.
Lemma vec_carried {A} (c : codec A) ok R : carried c ok R ->
  carried (vec_codec c) (fun l => Forall ok l /\ zlen l < 2 ^ 31) (Forall2 R).
Proof.
  intros HC l rest [Hl Hz]. cbn [c_dec c_enc vec_codec]. unfold vec_dec, vec_enc.
  pose proof (zlen_nonneg l) as H0.
  rewrite wrap_u_id by (unfold in_u; change (2^32) with 4294967296; change (2^31) with 2147483648 in Hz; lia).
  rewrite <- app_assoc, i32_dec by lia. cbn [bind]. destruct (zlen l <? 1) eqn:Q.
  - destruct l; [exists []; split; [reflexivity|constructor]|]. rewrite zlen_cons in Q. pose proof (zlen_nonneg l). lia.
  - unfold zlen. rewrite Nat2Z.id. apply times_carried with (ok := ok); assumption.
Qed.

(** ** Record sets *)
Lemma whole_clean l : clean_cut l (zlen (flat_map (batch_enc raw_codec) l)).
Proof.
  induction l as [|b l IH]; cbn [clean_cut flat_map]; [reflexivity|]. rewrite zlen_app.
  pose proof (zlen_nonneg (flat_map (batch_enc raw_codec) l)).
  replace (zlen (batch_enc raw_codec b) <=? _) with true by lia.
  replace (_ + _ - _) with (zlen (flat_map (batch_enc raw_codec) l)) by lia. exact IH.
Qed.
Definition set_ok (l : list (batch bytes)) : Prop :=
  Forall raw_batch_ok l /\ zlen (flat_map (batch_enc raw_codec) l) < 2 ^ 31.
Lemma set_carried : carried set_codec set_ok (Forall2 (fun b b' => arrived (batch_enc raw_codec b) b b')).
Proof.
  intros l rest [H H31]. set (c := flat_map (batch_enc raw_codec) l) in *.
  exists (decoded c). cbn [c_dec c_enc set_codec].
  change (rset_enc raw_codec l) with (c_enc content_codec c). rewrite set_reads by exact H31.
  assert (leftover c = []) as ->.
  { apply (cut_leftover c l (zlen c)); [|apply whole_clean]. pose proof (zlen_nonneg c).
    split; [exact H|]. split; [fold c; lia|]. split; [exact H31|]. symmetry. apply ztake_all. fold c. lia. }
  split; [reflexivity|]. destruct (raw_set_roundtrip l [] H H31) as (l' & E & X). rewrite app_nil_r in E.
  unfold rset_enc in E. cbv zeta in E. fold c in E. pose proof (zlen_nonneg c).
  rewrite wrap_s_id in E by (try lia; unfold in_s; change (2 ^ (32 - 1)) with (2 ^ 31); lia).
  unfold decoded. rewrite E. exact X.
Qed.
Lemma batch_bytes b : raw_batch_ok b -> is_bytes (batch_enc raw_codec b).
Proof.
  intros H. unfold batch_enc. do 5 (apply is_bytes_app; split; [apply be_enc_bytes|]).
  eapply batch_tail_bytes; [exact raw_bytes|exact H].
Qed.
Definition plain_set (l : list (batch bytes)) : Prop := set_ok l /\ Forall (fun b => has_schema (b_hdr b) = false) l.
Lemma set_sized : sized set_codec plain_set.
Proof.
  split.
  - intros l [[H _] P]. cbn [c_size c_enc set_codec]. unfold rset_enc, rset_size. cbv zeta. rewrite zlen_app.
    unfold zlen at 1. rewrite be_enc_length. change (Z.of_nat 4) with 4. generalize 4 as s.
    induction l as [|b l IH]; intros s; cbn [fold_left flat_map]; [rewrite zlen_nil; lia|].
    apply Forall_cons_iff in H as [Hb H]. apply Forall_cons_iff in P as [Pb P]. rewrite (IH H P), zlen_app.
    rewrite (raw_batch_size b Hb), Pb. lia.
  - intros l [[H _] _]. cbn [c_enc set_codec]. unfold rset_enc. cbv zeta. apply is_bytes_app. split; [apply be_enc_bytes|].
    induction H; cbn [flat_map]; [constructor|]. apply is_bytes_app. auto using batch_bytes.
Qed.

(** ** Produce requests *)
Lemma part_carried v : 0 <= v -> carried (ppdata_codec v) part_ok part_arrives.
Proof.
  intros Hv. unfold ppdata_codec. rewrite !fld_on by lia.
  intros p rest (H1 & H2 & H3).
  exact (pair_carried _ _ _ _ _ _ (lawful_carried _ _ u4_lawful) set_carried p rest (conj H1 (conj H2 H3))).
Qed.
Lemma topic_carried v : 0 <= v -> carried (tpdata_codec v) topic_ok topic_arrives.
Proof.
  intros Hv. unfold tpdata_codec. rewrite !fld_on by lia.
  exact (pair_carried _ _ _ _ _ _ (lawful_carried _ _ string_lawful) (vec_carried _ _ _ (part_carried v Hv))).
Qed.
Lemma invocation_wf : well_formed invocation.
Proof. apply wfb_well_formed. vm_compute. reflexivity. Qed.
Lemma Forall2_eq_map {A} (f : A -> A) l l' : Forall2 (fun a b => b = f a) l l' -> l' = map f l.
Proof. induction 1 as [|a b l l' E _ IH]; cbn [map]; [reflexivity|]. rewrite E, IH. reflexivity. Qed.

Lemma millis_nanos d : 0 <= snd d < 10 ^ 9 -> millis d = nanos d / 10 ^ 6.
Proof.
  intros H. unfold millis, nanos. change (10 ^ 9) with (1000 * 1000000). change (10 ^ 6) with 1000000.
  rewrite Z.mul_assoc, Z.div_add_l by lia. reflexivity.
Qed.
Lemma of_millis_nanos n : nanos (of_millis n) = n * 10 ^ 6.
Proof.
  unfold nanos, of_millis. cbn [fst snd]. change (10 ^ 9) with 1000000000. change (10 ^ 6) with 1000000.
  pose proof (Z.div_mod n 1000). lia.
Qed.
Lemma millis_bound d : 0 <= snd d < 10 ^ 9 -> (millis d < 2 ^ 31 <-> nanos d < 2 ^ 31 * 10 ^ 6).
Proof.
  intros H. rewrite millis_nanos by exact H. change (10 ^ 6) with 1000000. change (2 ^ 31) with 2147483648. split; intro L.
  - pose proof (Z.mul_succ_div_gt (nanos d) 1000000). lia.
  - apply Z.div_lt_upper_bound; lia.
Qed.
Lemma timeout_sent d : 0 <= snd d < 10 ^ 9 ->
  timeout_data d = if nanos d <? 2 ^ 31 * 10 ^ 6 then Ok (millis d) else Err InvalidData.
Proof.
  intros H. unfold timeout_data. pose proof (millis_bound d H) as B.
  destruct (millis d <? 2 ^ 31) eqn:E, (nanos d <? 2 ^ 31 * 10 ^ 6) eqn:F; try reflexivity; exfalso.
  - apply Z.ltb_lt in E. apply Z.ltb_ge in F. apply B in E. lia.
  - apply Z.ltb_ge in E. apply Z.ltb_lt in F. apply B in F. lia.
Qed.

Lemma produce_carried v p rest : 0 <= v -> produce_ok p -> nanos (p_timeout p) < 2 ^ 31 * 10 ^ 6 ->
  exists b q, produce_enc v p = Ok b /\ produce_dec v (b ++ rest) = Ok (q, rest) /\ produce_arrives v p q.
Proof.
  intros Hv (T & D1 & D2 & TO & MO) S. unfold produce_enc. rewrite timeout_sent by exact D2.
  replace (nanos (p_timeout p) <? 2 ^ 31 * 10 ^ 6) with true by (symmetry; apply Z.ltb_lt; exact S).
  cbn [bind]. match goal with |- exists b q, Ok ?e = Ok b /\ _ => exists e end. unfold produce_dec. rewrite <- !app_assoc.
  destruct (option_lawful _ _ string_lawful) as (RT & _). rewrite RT by exact T. cbn [bind].
  destruct s2_lawful as (RA & _). change (be_enc 2 (acks (p_committed p))) with (c_enc i16_codec (acks (p_committed p))).
  rewrite RA by (unfold acks, in_s; destruct (p_committed p); lia). cbn [bind].
  assert (0 <= millis (p_timeout p) < 2 ^ 31) as M.
  { split; [|apply millis_bound; assumption]. unfold millis. pose proof (Z.div_pos (snd (p_timeout p)) 1000000). lia. }
  rewrite i32_dec by exact M. cbn [bind]. unfold of_timeout. replace (millis (p_timeout p) <? 0) with false by lia. cbn [bind].
  destruct (vec_carried _ _ _ (topic_carried v Hv) (p_topics p) (c_enc (modules_codec v) (p_modules p) ++ rest) TO) as (ts & Et & Xt).
  rewrite Et. cbn [bind].
  destruct (vec_carried _ _ _ (arrives_carried _ _ _ (arrives_current v _ invocation_wf)) (p_modules p) rest MO) as (ms & Em & Xm).
  unfold modules_codec. rewrite Em. cbn [bind]. eexists. split; [reflexivity|]. split; [reflexivity|].
  split; [reflexivity|]. cbn [p_txn p_committed p_timeout p_topics p_modules].
  split; [unfold of_acks, acks; destruct (p_committed p); reflexivity|].
  split; [rewrite of_millis_nanos, millis_nanos by exact D2; reflexivity|]. split; [exact Xt|].
  apply Forall2_eq_map. exact Xm.
Qed.
Lemma produce_refused v p : produce_ok p -> ~ nanos (p_timeout p) < 2 ^ 31 * 10 ^ 6 -> produce_enc v p = Err InvalidData.
Proof.
  intros (_ & _ & D & _) S. unfold produce_enc. rewrite timeout_sent by exact D.
  replace (nanos (p_timeout p) <? 2 ^ 31 * 10 ^ 6) with false by (symmetry; apply Z.ltb_ge; lia). reflexivity.
Qed.

Lemma Ok_inj {A} (a b : A) : Ok a = Ok b -> b = a.
Proof. congruence. Qed.
Lemma vec_sized {A} (c : codec A) ok : sized c ok -> sized (vec_codec c) (Forall ok).
Proof. apply sized_vec. Qed.
Lemma produce_sized v p b : 0 <= v -> produce_ok p -> no_schemas (RProduce p) -> produce_enc v p = Ok b ->
  zlen b = produce_size v p /\ is_bytes b.
Proof.
  intros Hv (T & _ & _ & (TO & _) & (MO & _)) NS E. cbn [no_schemas] in NS.
  unfold produce_enc in E. destruct (timeout_data _) as [n|]; [|discriminate E]. cbn [bind] in E. apply Ok_inj in E. subst b.
  pose proof (lawful_sized _ _ (option_lawful _ _ string_lawful)) as [S1 B1].
  assert (sized (vec_codec (tpdata_codec v)) (Forall (fun t => topic_ok t
            /\ Forall (fun q => Forall (fun b => has_schema (b_hdr b) = false) (snd q)) (snd t)))) as [S2 B2].
  { apply vec_sized. unfold tpdata_codec. rewrite !fld_on by lia.
    pose proof (sized_pair _ _ _ _ (lawful_sized _ _ string_lawful)
      (vec_sized _ _ (sized_pair _ _ _ _ (lawful_sized _ _ u4_lawful) set_sized))) as [S B].
    assert (forall t, topic_ok t /\ Forall (fun q => Forall (fun b => has_schema (b_hdr b) = false) (snd q)) (snd t) ->
              str_ok (fst t) /\ Forall (fun q => in_u 32 (fst q) /\ plain_set (snd q)) (snd t)) as K.
    { intros t ((K1 & K2 & _) & K3). split; [exact K1|]. rewrite Forall_forall in *. intros q Hq.
      destruct (K2 q Hq) as (J1 & J2 & J3). split; [exact J1|]. split; [split; assumption|exact (K3 q Hq)]. }
    unfold ppdata_codec. rewrite !fld_on by lia.
    split; intros t Ht; [apply S|apply B]; exact (K t Ht). }
  pose proof (vec_sized _ _ (size_current v invocation)) as [S3 B3].
  assert (Forall (fun t => topic_ok t /\ Forall (fun q => Forall (fun b => has_schema (b_hdr b) = false) (snd q)) (snd t)) (p_topics p)) as TT.
  { rewrite Forall_forall in *. intros t Ht. split; [apply TO|apply NS]; exact Ht. }
  split.
  - assert (forall n x, zlen (be_enc n x) = Z.of_nat n) as BZ by (intros; unfold zlen; rewrite be_enc_length; reflexivity).
    unfold produce_size, modules_codec. rewrite (S1 _ T), (S2 _ TT), (S3 _ MO).
    pose proof (BZ 2%nat (acks (p_committed p))) as Z2. pose proof (BZ 4%nat n) as Z4.
    remember (be_enc 2 (acks (p_committed p))) as b2 eqn:Q2. remember (be_enc 4 n) as b4 eqn:Q4. clear Q2 Q4.
    rewrite !zlen_app, Z2, Z4. lia.
  - apply is_bytes_app. split; [apply B1, T|]. do 2 (apply is_bytes_app; split; [apply be_enc_bytes|]).
    apply is_bytes_app. split; [apply B2, TT|apply B3, MO].
Qed.

(** ** Requests *)
Lemma by_key_key a : by_key (key a) = Some a.
Proof. destruct a; reflexivity. Qed.
Lemma requests_wf a : well_formed (req_ty a).
Proof. apply wfb_well_formed. destruct a; vm_compute; reflexivity. Qed.

Lemma request_carried v r rest : 0 <= v -> request_ok r -> short_timeout r ->
  exists b r', req_enc v r = Ok b /\ req_dec (api_of r) v (b ++ rest) = Ok (r', rest) /\ arrives v r r'.
Proof.
  intros Hv RO ST. destruct r as [p|a x]; cbn [request_ok short_timeout req_enc api_of] in *.
  - destruct (produce_carried v p rest Hv RO ST) as (b & q & E & D & X). exists b, (RProduce q).
    split; [exact E|]. split; [|exact X]. cbn [req_dec]. rewrite D. reflexivity.
  - destruct RO as [NP F]. eexists. exists (ROther a (seen v (req_ty a) x)). split; [reflexivity|].
    split; [|split; reflexivity]. pose proof (arrives_current v _ (requests_wf a) x rest F) as D.
    destruct a; try (exfalso; apply NP; reflexivity); cbn [req_dec]; rewrite D; reflexivity.
Qed.
Lemma request_refused v r : request_ok r -> ~ short_timeout r -> req_enc v r = Err InvalidData.
Proof.
  intros RO ST. destruct r as [p|a x]; cbn [request_ok short_timeout req_enc] in *; [|exfalso; apply ST; exact Logic.I].
  apply produce_refused; assumption.
Qed.
Lemma request_sized v r b : 0 <= v -> request_ok r -> no_schemas r -> req_enc v r = Ok b ->
  zlen b = req_size v r /\ is_bytes b.
Proof.
  intros Hv RO NS E. destruct r as [p|a x]; cbn [request_ok req_enc req_size] in *.
  - apply produce_sized; assumption.
  - destruct RO as [_ F]. apply Ok_inj in E. subst b. destruct (size_current v (req_ty a)) as [S B].
    split; [symmetry; apply S, F|apply B, F].
Qed.
