From Verif Require Import ReplicationModel ReplicationSpec StorageSpec RecordSpec RecordProofs StorageProofs ReplicaProofs StorageClaims ReplicationProofs WireProofs ListFacts.

(** * Followers of a leader *)
Lemma insert_id_in i j l : In j (insert_id i l) <-> j = i \/ In j l.
Proof.
  induction l as [|h t IH]; cbn [insert_id]; [cbn; intuition|]. destruct (Z.compare_spec i h) as [->|L|L].
  - cbn. intuition.
  - cbn. intuition.
  - cbn [In]. rewrite IH. intuition.
Qed.
Lemma insert_id_length i l : ~ In i l -> length (insert_id i l) = S (length l).
Proof.
  induction l as [|h t IH]; intros N; [reflexivity|]. cbn [insert_id]. destruct (Z.compare_spec i h) as [->|L|L].
  - exfalso. apply N. left. reflexivity.
  - reflexivity.
  - cbn [length]. rewrite IH; [reflexivity|]. intros H. apply N. right. assumption.
Qed.
Lemma fold_insert_in l : forall a j, In j (fold_left (fun a i => insert_id i a) l a) <-> In j l \/ In j a.
Proof.
  induction l as [|i l IH]; intros a j; cbn [fold_left In]; [intuition|]. rewrite IH, insert_id_in. intuition.
Qed.
Lemma fold_insert_length l : forall a, NoDup l -> (forall j, In j l -> ~ In j a) ->
  length (fold_left (fun a i => insert_id i a) l a) = (length l + length a)%nat.
Proof.
  induction l as [|i l IH]; intros a ND H; [reflexivity|]. cbn [fold_left length]. inversion ND; subst. rewrite IH.
  - rewrite insert_id_length by (apply H; left; reflexivity). lia.
  - assumption.
  - intros j J. rewrite insert_id_in. intros [->|K]; [contradiction|]. eapply H; [right; eassumption|assumption].
Qed.
Lemma follower_ids_in leader rs i : In i (follower_ids leader rs) <-> In i rs /\ i <> leader.
Proof.
  unfold follower_ids. rewrite fold_insert_in, filter_In. cbn [In]. rewrite negb_true_iff, Z.eqb_neq. intuition.
Qed.
Lemma filter_remove_length leader rs : NoDup rs -> In leader rs -> S (length (filter (fun i => negb (i =? leader)) rs)) = length rs.
Proof.
  induction rs as [|x rs IH]; [intros _ []|]. intros ND [->|I]; inversion ND; subst; cbn [filter].
  - rewrite Z.eqb_refl. cbn [negb length]. rewrite filter_all; [reflexivity|]. intros y Hy. apply negb_true_iff, Z.eqb_neq. intros ->. contradiction.
  - destruct (x =? leader) eqn:C; [apply Z.eqb_eq in C; subst; contradiction|]. cbn [negb length]. rewrite IH by assumption. reflexivity.
Qed.
Lemma follower_ids_length leader rs : NoDup rs -> In leader rs -> S (length (follower_ids leader rs)) = length rs.
Proof.
  intros ND I. unfold follower_ids. rewrite fold_insert_length; [cbn [length]; rewrite Nat.add_0_r; apply filter_remove_length; assumption| |intros j _ []].
  apply NoDup_filter. assumption.
Qed.

Lemma insert_id_nodup i l : ~ In i l -> NoDup l -> NoDup (insert_id i l).
Proof.
  induction l as [|h t IH]; intros N ND; cbn [insert_id]; [constructor; [intros []|constructor]|]. destruct (Z.compare_spec i h) as [->|L|L].
  - assumption.
  - constructor; assumption.
  - inversion ND; subst. constructor; [rewrite insert_id_in; intros [->|K]; [lia|contradiction]|apply IH; [intros K; apply N; right; assumption|assumption]].
Qed.
Lemma fold_insert_nodup l : forall a, NoDup l -> (forall j, In j l -> ~ In j a) -> NoDup a -> NoDup (fold_left (fun a i => insert_id i a) l a).
Proof.
  induction l as [|i l IH]; intros a ND H NA; [assumption|]. cbn [fold_left]. inversion ND; subst. apply IH.
  - assumption.
  - intros j J. rewrite insert_id_in. intros [->|K]; [contradiction|]. eapply H; [right; eassumption|assumption].
  - apply insert_id_nodup; [apply H; left; reflexivity|assumption].
Qed.
Lemma follower_ids_nodup leader rs : NoDup rs -> NoDup (follower_ids leader rs).
Proof. intros ND. apply fold_insert_nodup; [apply NoDup_filter; assumption|intros j _ []|constructor]. Qed.

(** * Views *)
Lemma view_in i v q : view i v = Some q -> In (i, q) v.
Proof. induction v as [|[j r] v IH]; [discriminate|]. cbn [view]. destruct (i =? j) eqn:C; [intros H; inversion H; subst; apply Z.eqb_eq in C; subst; left; reflexivity|]. intros H. right. auto. Qed.
Lemma set_view_keys i q v : map fst (set_view i q v) = map fst v.
Proof. induction v as [|[j r] v IH]; [reflexivity|]. cbn [set_view]. destruct (i =? j); cbn [map fst]; congruence. Qed.
Lemma set_view_same i q v r : view i v = Some r -> view i (set_view i q v) = Some q.
Proof. induction v as [|[j s] v IH]; [discriminate|]. cbn [view set_view]. destruct (i =? j) eqn:C; cbn [view]; rewrite C; auto. Qed.
Lemma set_view_other i j q v : i <> j -> view i (set_view j q v) = view i v.
Proof.
  intros N. induction v as [|[k s] v IH]; [reflexivity|]. cbn [set_view]. destruct (j =? k) eqn:C; cbn [view].
  - apply Z.eqb_eq in C. subst. destruct (i =? k) eqn:D; [apply Z.eqb_eq in D; congruence|reflexivity].
  - destruct (i =? k); [reflexivity|assumption].
Qed.
Lemma set_view_in i q v x : In x (set_view i q v) -> x = (i, q) \/ In x v.
Proof.
  induction v as [|[j r] v IH]; [intros []|]. cbn [set_view]. destruct (i =? j) eqn:C.
  - apply Z.eqb_eq in C. subst. intros [<-|H]; [left; reflexivity|right; right; assumption].
  - intros [<-|H]; [right; left; reflexivity|]. destruct (IH H); [left; assumption|right; right; assumption].
Qed.
Lemma set_view_leos i q0 q v x : view i v = Some q0 -> i_leo q0 <= i_leo q -> forall t,
  (forall y, In y v -> t <= i_leo (snd y)) -> In x (set_view i q v) -> t <= i_leo (snd x).
Proof.
  intros V L t H I. apply set_view_in in I as [->|I]; [|apply H; assumption]. cbn [snd].
  apply view_in in V. specialize (H _ V). cbn [snd] in H. lia.
Qed.

Lemma update_info_le q p0 q' b : update_info q p0 = (q', b) ->
  i_hw q <= i_hw q' /\ i_leo q <= i_leo q' /\ i_leo q' <= Z.max (i_leo q) (i_leo p0) /\ (i_hw q <= i_leo q -> i_hw p0 <= i_leo p0 -> i_hw q' <= i_leo q').
Proof. unfold update_info. intros H; inversion H; subst; cbn [i_hw i_leo]. destruct (i_hw q <? i_hw p0) eqn:?, (i_leo q <? i_leo p0) eqn:?; lia. Qed.

Lemma view_unique i v w x : NoDup (map fst v) -> view i v = Some w -> In x v -> fst x = i -> w = snd x.
Proof.
  induction v as [|[j r] v IH]; [discriminate|]. cbn [map fst view]. intros ND V [<-|IX] EX; inversion ND; subst; cbn [fst snd] in *.
  - rewrite Z.eqb_refl in V. congruence.
  - destruct (fst x =? j) eqn:C; [|apply IH; auto]. apply Z.eqb_eq in C. exfalso. apply H1. rewrite <- C. apply in_map. assumption.
Qed.
Lemma set_view_kept i q v x : In x v -> fst x <> i -> In x (set_view i q v).
Proof.
  induction v as [|[j r] v IH]; [intros []|]. cbn [set_view]. intros [<-|IX] NE; cbn [fst] in *.
  - destruct (i =? j) eqn:C; [apply Z.eqb_eq in C; congruence|left; reflexivity].
  - destruct (i =? j); right; [assumption|apply IH; assumption].
Qed.
Lemma reached_less leos h : (reached_by leos h < length leos)%nat -> exists y, In y leos /\ y < h.
Proof.
  unfold reached_by. induction leos as [|y leos IH]; cbn [filter length]; [lia|]. destruct (h <=? y) eqn:C; cbn [length].
  - intros H. destruct IH as (z & IZ & LZ); [lia|]. exists z. split; [right; assumption|assumption].
  - intros _. exists y. split; [left; reflexivity|lia].
Qed.

(** * Chains *)
Lemma chain_prefix a : forall s b a' b' x, a ++ a' = b ++ b' -> chain s a x -> chain s b x -> a = b.
Proof.
  induction a as [|h a IH]; intros s [|h' b] a' b' x E A B; cbn [chain app] in *.
  - reflexivity.
  - destruct B as (B1 & B2 & B3). apply chain_le in B3. lia.
  - destruct A as (A1 & A2 & A3). apply chain_le in A3. lia.
  - inversion E; subst h'. destruct A as (_ & _ & A3). destruct B as (_ & _ & B3). f_equal. eapply IH; eassumption.
Qed.
Lemma with_base_id (b : batch bytes) : with_base b (b_base b) = b.
Proof. destruct b. reflexivity. Qed.
Lemma number_chain_id l : forall s e, chain s l e -> number s l = l.
Proof.
  induction l as [|b l IH]; intros s e; [reflexivity|]. cbn [chain number]. intros (E & _ & H). subst s. rewrite with_base_id. f_equal. eapply IH; eassumption.
Qed.
Lemma chain_firstn n l : forall s e, chain s l e -> exists m, chain s (firstn n l) m /\ m <= e.
Proof.
  intros s e H. rewrite <- (firstn_skipn n l) in H. apply chain_split in H as (m & A & B). exists m. split; [assumption|]. apply chain_le in B. assumption.
Qed.
Lemma total_records_total {R} (l : list (batch R)) : total_records l = fold_right (fun b a => records_len b + a) 0 l.
Proof.
  unfold total_records. enough (forall a, fold_left (fun a b => a + records_len b) l a = a + fold_right (fun b a => records_len b + a) 0 l) by (rewrite H; lia).
  induction l as [|b l IH]; intros a; cbn [fold_left fold_right]; [lia|]. rewrite IH. lia.
Qed.
Lemma total_records_eq l : total_records l = total l.
Proof. rewrite total_records_total. induction l as [|b l IH]; cbn; [reflexivity|]. rewrite IH. reflexivity. Qed.

(** * Reading, with the size of what is read *)
Lemma read_sized c r L o n : config_ok c -> inv c r L -> get_log_start r <= o < get_leo r ->
  exists pre sel rest, L = pre ++ sel ++ rest /\ zlen (encs sel) <= c_seg_max c
    /\ read_partition_slice r o n ReadUncommitted
       = Done (mkSlice (get_log_start r) (get_hw r) (get_leo r) (Some (ztake n (encs sel))))
    /\ exists b t, sel = b :: t /\ contains b o.
Proof.
  intros CO (s & ls & act & -> & I) Ho. pose proof (log_start_ok _ _ _ _ _ I) as LS. rewrite LS in *.
  destruct (locate _ _ _ _ _ o I Ho) as (before & l & after & q & e & closed & ipos & E & C1 & C2 & C3 & Q & OK & SP & SZ & IP & AF & BB & CL & CN & RD).
  destruct (chain_find _ _ _ o C2 Q) as (a & b & c' & El & CT & CA).
  exists (before ++ a), (b :: c'), after. rewrite E, El.
  split; [rewrite <- !app_assoc; reflexivity|]. split.
  - rewrite El, encs_app, zlen_app in SZ. pose proof (zlen_nonneg (encs a)). lia.
  - split; [|eauto]. unfold read_partition_slice. rewrite RD.
    rewrite (slice_all closed q e l ipos o a b c' None OK C2) by (auto; change (2^31) with 2147483648 in *; change (2^32) with 4294967296; lia).
    rewrite El. rewrite slice_suffix. reflexivity.
Qed.

(** Batches without schema id and with records are stored entirely or not at all. *)
Lemma all_or_nothing c r now l L upd : config_ok c -> inv c r L -> Forall raw_batch_ok l -> room r l -> r_short r = false ->
  Forall (fun b => 0 < records_len b /\ has_schema (b_hdr b) = false) l ->
  match write_recordset c now r l upd with
  | (r', None) => r_short r' = false
  | (r', Some _) => r' = r
  end.
Proof.
  intros CO (s & ls & act & _ & I) OK RM SH G. unfold write_recordset. destruct (check_limits c l) eqn:CL; [reflexivity|].
  destruct (write_batches c now r l) as [r1 res] eqn:WB.
  destruct (write_batches_at _ _ _ _ _ _ _ _ _ CO I OK CL RM WB) as (n & ls' & act' & I' & MB & HW & N & F & LEO & POS & D).
  destruct res as [e|].
  - exfalso. destruct D as (_ & [(_ & S & _)|(_ & b & NB & D)]); [congruence|].
    apply nth_error_In in NB. rewrite Forall_forall in G. destruct (G b NB) as (G1 & G2).
    destruct D as [(_ & D & _)|(_ & D & _)]; [lia|congruence].
  - destruct D as (_ & D). destruct upd; cbn [update_hw r_short]; [|congruence]. destruct r1; cbn in *; congruence.
Qed.

Lemma follow_hw_ok r hw : let r' := follow_hw r hw in
  (r' = r \/ (r' = update_hw r hw /\ get_hw r < hw <= get_leo r)) .
Proof.
  cbv zeta. unfold follow_hw. destruct (get_hw r =? hw) eqn:A; [auto|]. destruct (hw <? get_hw r) eqn:B; [auto|]. destruct (get_leo r <? hw) eqn:C; [auto|]. right. split; [reflexivity|]. lia.
Qed.
(** * What arrives at a follower *)
Section Cluster.
Variable p : params.
Hypothesis PO : params_ok p.
Variable full : bool.
Hypothesis FULL : full = true -> c_seg_max (p_conf p) <= p_max_bytes p.

Definition rel (b b' : batch bytes) : Prop :=
  exists rs, b' = received_with raw_codec b rs /\ raw_part (b_recs b) rs /\ (full = true -> rs = b_recs b).
Lemma rel_base b b' : rel b b' -> b_base b' = b_base b.
Proof. intros (rs & -> & _). reflexivity. Qed.
Lemma rel_len b b' : rel b b' -> records_len b' = records_len b.
Proof. intros (rs & -> & _). reflexivity. Qed.
Lemma rel_schema b b' : rel b b' -> has_schema (b_hdr b') = has_schema (b_hdr b).
Proof. intros (rs & -> & _). reflexivity. Qed.
Lemma rel_ok b b' : raw_batch_ok b -> rel b b' -> raw_batch_ok b'.
Proof.
  intros (H1 & H2 & H3 & H4 & H5) (rs & -> & (j & ->) & _). split; [exact H1|]. split; [|split; [exact H3|]].
  - cbn [received_with b_schema]. destruct (has_schema _); [exact H2|]. unfold in_u. change (2 ^ 32) with 4294967296. lia.
  - cbn [received_with b_recs]. split; [|rewrite zlen_ztake; lia].
    rewrite ztake_firstn. apply Forall_firstn. exact H4.
Qed.
Lemma rel_enc b b' : full = true -> rel b b' -> renc b' = renc b.
Proof.
  intros F (rs & -> & _ & E). rewrite (E F). unfold renc, batch_enc, received_with, received_hdr, calc_batch_len, batch_tail, has_schema, with_crc.
  cbn [b_base b_hdr b_recs b_schema h_epoch h_magic h_attr h_last_delta h_first_ts h_max_ts h_pid h_pepoch h_seq].
  match goal with |- context [if ?x then b_schema b else 0] => destruct x end; reflexivity.
Qed.
Lemma rel_chain l l' : Forall2 rel l l' -> forall s e, chain s l e <-> chain s l' e.
Proof.
  induction 1 as [|b b' l l' R F IH]; intros s e; [reflexivity|]. cbn [chain]. rewrite (rel_base _ _ R), (rel_len _ _ R), IH. reflexivity.
Qed.
Lemma rel_encs l l' : full = true -> Forall2 rel l l' -> encs l' = encs l.
Proof. intros FU. induction 1 as [|b b' l l' R F IH]; [reflexivity|]. rewrite !encs_cons, IH, (rel_enc _ _ FU R). reflexivity. Qed.
Lemma rel_oks l l' : Forall raw_batch_ok l -> Forall2 rel l l' -> Forall raw_batch_ok l'.
Proof. intros H F. revert H. induction F as [|b b' l l' R F IH]; intros H; [constructor|]. inversion H; subst. constructor; [eapply rel_ok; eassumption|auto]. Qed.
Lemma rel_schemas l l' : Forall (fun b => has_schema (b_hdr b) = false) l -> Forall2 rel l l' -> Forall (fun b => has_schema (b_hdr b) = false) l'.
Proof. intros H F. revert H. induction F as [|b b' l l' R F IH]; intros H; [constructor|]. inversion H; subst. constructor; [rewrite (rel_schema _ _ R); assumption|auto]. Qed.
Lemma rel_received l : Forall2 rel l (map (received raw_codec) l).
Proof. induction l as [|b l IH]; cbn [map]; constructor; [|assumption]. exists (b_recs b). split; [reflexivity|]. split; [|auto]. exists (zlen (b_recs b)). rewrite ztake_all by lia. reflexivity. Qed.
Lemma chain_pos l : forall s e, chain s l e -> Forall (fun b => 0 < records_len b) l.
Proof. induction l as [|b l IH]; intros s e; [constructor|]. cbn [chain]. intros (_ & P & H). constructor; [assumption|eauto]. Qed.

Lemma receive_rel sel n : Forall raw_batch_ok sel -> zlen (encs sel) < 2 ^ 31 -> 0 <= n -> (full = true -> zlen (encs sel) <= n) ->
  exists k, Forall2 rel (firstn k sel) (receive (ztake n (encs sel))).
Proof.
  clear PO FULL.
  intros OK SZ N FU. set (k := zlen (ztake n (encs sel))).
  assert (ztake n (encs sel) = ztake k (encs sel)) as E.
  { unfold k. rewrite zlen_ztake. destruct (Z.le_ge_cases n (zlen (encs sel))); [rewrite Z.min_l by lia; rewrite Z.max_r by lia; reflexivity|].
    rewrite Z.min_r by lia. rewrite !ztake_all by (pose proof (zlen_nonneg (encs sel)); lia). reflexivity. }
  assert (0 <= k <= zlen (encs sel)) as K by (unfold k; rewrite zlen_ztake; pose proof (zlen_nonneg (encs sel)); lia).
  unfold receive. fold k. rewrite E.
  destruct (raw_set_cut sel k [] OK K ltac:(lia)) as (m & tail & o & D & A1 & A2 & A3 & A4 & A5). rewrite app_nil_r in D.
  change (encs sel) with (flat_map (batch_enc raw_codec) sel). rewrite D.
  destruct A5 as [->|(b & r & NB & -> & P)].
  - exists m. rewrite app_nil_r. apply rel_received.
  - destruct full eqn:FE.
    + exfalso. specialize (FU eq_refl). assert (k = zlen (encs sel)) as KE by (unfold k; rewrite zlen_ztake; pose proof (zlen_nonneg (encs sel)); lia).
      destruct A3 as [A3| ->].
      * pose proof (nth_error_Some sel m) as NS. rewrite NB in NS. assert (m < length sel)%nat as ML by (apply NS; discriminate).
        pose proof (enc_firstn_lt raw_codec sel m ML) as EL. unfold encs, renc in KE. change (fun b : batch bytes => batch_enc raw_codec b) with (batch_enc raw_codec) in *. lia.
      * pose proof (nth_error_Some sel (length sel)) as NS. rewrite NB in NS. assert (length sel < length sel)%nat by (apply NS; discriminate). lia.
    + exists (S m). assert (firstn (S m) sel = firstn m sel ++ [b]) as ->.
      { clear - NB. revert m NB. induction sel as [|x sel IH]; intros [|m] NB; cbn in *; [discriminate|discriminate|inversion NB; reflexivity|]. f_equal. apply IH. assumption. }
      apply Forall2_app; [apply rel_received|]. constructor; [|constructor]. exists r. split; [reflexivity|]. split; [assumption|congruence].
Qed.

(** * The invariant *)
Definition foll (H : list (batch bytes)) (c : config) (r : replica) : Prop :=
  exists n dropped L, inv c r L /\ Forall2 rel (firstn n H) (dropped ++ L) /\ chain 0 dropped (get_log_start r) /\ r_short r = false.
Definition msg_ok (H : list (batch bytes)) (s : cluster) (m : msg) : Prop :=
  match m with
  | ToFollower i m => follower p i /\ s_hw m <= get_hw (k_leader s)
      /\ exists pre sel rest n, H = pre ++ sel ++ rest /\ s_records m = ztake n (encs sel) /\ zlen (encs sel) < 2 ^ 31 /\ 0 <= n
         /\ (full = true -> zlen (encs sel) <= n)
  | ToLeader i q => follower p i /\ i_hw q <= i_leo q <= get_leo (k_follower s i)
  end.
Definition good (b : batch bytes) : Prop := raw_batch_ok b /\ has_schema (b_hdr b) = false.
Record cinv (H : list (batch bytes)) (s : cluster) : Prop := {
  ci_leader : exists dl L, H = dl ++ L /\ inv (p_conf p) (k_leader s) L /\ chain 0 dl (get_log_start (k_leader s));
  ci_good : Forall good H;
  ci_foll : forall i, follower p i -> foll H (p_fconf p i) (k_follower s i) /\ 0 <= get_hw (k_follower s i) <= get_hw (k_leader s) /\ get_hw (k_follower s i) <= get_leo (k_follower s i);
  ci_keys : map fst (k_views s) = follower_ids (p_leader p) (p_replicas p);
  ci_views : forall x, In x (k_views s) -> i_hw (snd x) <= i_leo (snd x) <= get_leo (k_follower s (fst x));
  ci_hw : get_hw (k_leader s) = 0 \/ forall x, In x (k_views s) -> get_hw (k_leader s) <= i_leo (snd x);
  ci_min : k_views s = [] \/ exists x, In x (k_views s) /\ i_leo (snd x) <= get_hw (k_leader s);
  ci_hw0 : 0 <= get_hw (k_leader s) <= get_leo (k_leader s);
  ci_net : forall m, In m (k_net s) -> msg_ok H s m;
}.

Lemma leader_chain H s : cinv H s -> chain 0 H (get_leo (k_leader s)).
Proof.
  intros CI. destruct (ci_leader _ _ CI) as (dl & L & -> & I & CH). destruct (inv_stores _ _ _ I) as ((_ & CL) & _). eapply chain_app; eassumption.
Qed.
Lemma foll_chain H c r : foll H c r -> exists n, chain 0 (firstn n H) (get_leo r).
Proof.
  intros (n & dr & L & I & F & CH & _). exists n. apply (rel_chain _ _ F). destruct (inv_stores _ _ _ I) as ((_ & CL) & _). eapply chain_app; eassumption.
Qed.
Lemma foll_leo H s i : cinv H s -> follower p i -> get_leo (k_follower s i) <= get_leo (k_leader s).
Proof.
  intros CI FI. destruct (ci_foll _ _ CI i FI) as (F & _). destruct (foll_chain _ _ _ F) as (n & C). pose proof (leader_chain _ _ CI) as CL.
  destruct (chain_firstn n _ _ _ CL) as (m & A & B). pose proof (chain_fun _ _ _ _ C A). lia.
Qed.
Lemma view_follower H s x : cinv H s -> In x (k_views s) -> follower p (fst x).
Proof. intros CI I. apply (in_map fst) in I. rewrite (ci_keys _ _ CI) in I. apply follower_ids_in in I. exact I. Qed.

Lemma foll_grow H new c r : foll H c r -> foll (H ++ new) c r.
Proof.
  intros (n & dr & L & I & F & CH & SH). exists (Nat.min n (length H)), dr, L. split; [assumption|]. split; [|auto].
  rewrite firstn_app. replace (Nat.min n (length H) - length H)%nat with 0%nat by lia. cbn [firstn]. rewrite app_nil_r.
  destruct (Nat.min_spec n (length H)) as [[_ ->]|[LE ->]]; [assumption|]. rewrite firstn_all. rewrite firstn_all2 in F by assumption. assumption.
Qed.
Lemma msg_grow H new s s' m : get_hw (k_leader s) <= get_hw (k_leader s') -> (forall i, follower p i -> get_leo (k_follower s i) <= get_leo (k_follower s' i)) ->
  msg_ok H s m -> msg_ok (H ++ new) s' m.
Proof.
  intros HW LE. destruct m as [i m|i q]; cbn [msg_ok].
  - intros (FI & A & pre & sel & rest & n & -> & B). split; [assumption|]. split; [lia|]. exists pre, sel, (rest ++ new), n. rewrite <- !app_assoc. auto.
  - intros (FI & A). split; [assumption|]. specialize (LE i FI). lia.
Qed.
Lemma msg_same H s s' m : get_hw (k_leader s) <= get_hw (k_leader s') -> (forall i, follower p i -> get_leo (k_follower s i) <= get_leo (k_follower s' i)) ->
  msg_ok H s m -> msg_ok H s' m.
Proof. intros A B C. rewrite <- (app_nil_r H). eapply msg_grow; eassumption. Qed.

Lemma keys_nodup H s : cinv H s -> NoDup (map fst (k_views s)).
Proof. intros CI. rewrite (ci_keys _ _ CI). apply follower_ids_nodup. apply PO. Qed.

(** What never goes backwards *)
Definition no_less (e : event) (s s' : cluster) : Prop :=
  get_leo (k_leader s) <= get_leo (k_leader s') /\ get_hw (k_leader s) <= get_hw (k_leader s')
  /\ (forall i, follower p i -> get_leo (k_follower s i) <= get_leo (k_follower s' i)
                /\ (no_restart e -> get_hw (k_follower s i) <= get_hw (k_follower s' i)))
  /\ forall i q, view i (k_views s) = Some q -> exists q', view i (k_views s') = Some q' /\ i_hw q <= i_hw q' /\ i_leo q <= i_leo q'.

Lemma isr_value : in_sync_replica (p_replicas p) = 1 + zlen (follower_ids (p_leader p) (p_replicas p)).
Proof.
  destruct PO as (I & ND & LE & _). unfold in_sync_replica. rewrite wrap_u_id by (unfold in_u; pose proof (zlen_nonneg (p_replicas p)); lia).
  pose proof (follower_ids_length _ _ ND I) as E. unfold zlen. lia.
Qed.

Lemma foll_same_leo H c c' r r' : foll H c r -> (forall L, inv c r L -> inv c' r' L) -> get_log_start r' = get_log_start r -> r_short r' = r_short r -> foll H c' r'.
Proof. intros (n & dr & L & I & F & CH & SH) K LS SS. exists n, dr, L. rewrite LS, SS. auto. Qed.

Lemma inv_update_hw c r o L : inv c r L -> inv c (update_hw r o) L.
Proof. intros I. exact I. Qed.

Lemma deliver_ok H s i now m : cinv H s -> In (ToFollower i m) (k_net s) -> room (k_follower s i) (receive (s_records m)) ->
  let r := k_follower s i in let r' := deliver (p_fconf p i) now r m in
  foll H (p_fconf p i) r' /\ get_leo r <= get_leo r' /\ get_hw r <= get_hw r' /\ get_hw r' <= get_hw (k_leader s) /\ get_hw r' <= get_leo r'.
Proof.
  intros CI NET RM r r'. destruct (ci_net _ _ CI _ NET) as (FI & SHW & pre & sel & rest & n & EH & ES & SZ & N0 & FU).
  destruct (ci_foll _ _ CI i FI) as (F & HW). fold r in F, HW.
  destruct PO as (_ & _ & _ & _ & CF & _). specialize (CF i).
  assert (forall r1, foll H (p_fconf p i) r1 -> get_leo r <= get_leo r1 -> get_hw r1 = get_hw r ->
     foll H (p_fconf p i) (follow_hw r1 (s_hw m)) /\ get_leo r <= get_leo (follow_hw r1 (s_hw m)) /\ get_hw r <= get_hw (follow_hw r1 (s_hw m)) /\ get_hw (follow_hw r1 (s_hw m)) <= get_hw (k_leader s) /\ get_hw (follow_hw r1 (s_hw m)) <= get_leo (follow_hw r1 (s_hw m))) as FIN.
  { intros r1 F1 L1 H1. destruct (follow_hw_ok r1 (s_hw m)) as [->|[-> HH]].
    - split; [assumption|]. split; [assumption|]. repeat split; lia.
    - split; [eapply foll_same_leo; [exact F1|intros L I; apply inv_update_hw; exact I|reflexivity|reflexivity]|]. split; [assumption|]. change (get_hw (update_hw r1 (s_hw m))) with (s_hw m). change (get_leo (update_hw r1 (s_hw m))) with (get_leo r1). lia. }
  assert (Forall raw_batch_ok sel /\ Forall (fun b => has_schema (b_hdr b) = false) sel) as (OKs & NS).
  { pose proof (ci_good _ _ CI) as G. rewrite EH in G. apply Forall_app in G as (_ & G). apply Forall_app in G as (G & _).
    split; eapply Forall_impl; try exact G; intros b (A & B); assumption. }
  unfold r', deliver, update_from_leader. rewrite ES in *. 
  destruct (receive_rel sel n OKs SZ N0 FU) as (k & RL).
  set (l := receive (ztake n (encs sel))) in *. clearbody l.
  destruct (0 <? total_records l) eqn:T; [|apply FIN; [assumption|lia|reflexivity]].
  destruct (rset_base_offset l =? get_leo r) eqn:B; [|apply FIN; [assumption|lia|reflexivity]].
  assert (Forall raw_batch_ok l) as OKl by (eapply rel_oks; [apply Forall_firstn; exact OKs|exact RL]).
  assert (Forall (fun b => has_schema (b_hdr b) = false) l) as NSl by (eapply rel_schemas; [apply Forall_firstn; exact NS|exact RL]).
  pose proof (leader_chain _ _ CI) as CL. rewrite EH in CL. apply chain_split in CL as (x & CP & CL). apply chain_split in CL as (y & CS & CR).
  assert (exists z, chain x l z) as (z & Cl).
  { destruct (chain_firstn k _ _ _ CS) as (z & CZ & _). exists z. apply (rel_chain _ _ RL). assumption. }
  assert (x = get_leo r) as EX.
  { destruct l as [|b l]; [cbn in T; discriminate|]. cbn [rset_base_offset] in B. cbn [chain] in Cl. lia. }
  subst x.
  destruct F as (n0 & dr & L & I & F & CH & SHT).
  assert (Forall (fun b => 0 < records_len b /\ has_schema (b_hdr b) = false) l) as Gl.
  { pose proof (chain_pos _ _ _ Cl) as P. clear - P NSl. induction P; inversion NSl; subst; constructor; auto. }
  pose proof (all_or_nothing (p_fconf p i) r now l L false CF I OKl RM SHT Gl) as AN.
  destruct (write_recordset (p_fconf p i) now r l false) as [r1 res] eqn:W.
  destruct res as [e|]; [rewrite AN; split; [exists n0, dr, L; auto|]; repeat split; lia|].
  assert (exec (p_fconf p i) r (Write now l false) = Done r1) as EX by (cbn [exec]; rewrite W; reflexivity).
  pose proof I as (s0 & ls & act & EL & IA).
  destruct (write_recordset_at _ _ _ _ _ _ _ _ _ _ CF IA OKl RM W) as (j & ls' & act' & IA' & J & EC & LEO & EJ & HW1).
  subst j. rewrite firstn_all in *. rewrite (number_chain_id _ _ _ Cl) in EC.
  assert (inv (p_fconf p i) r1 (L ++ l)) as I1.
  { exists s0, ls', act'. split; [|assumption]. rewrite EC, EL. reflexivity. }
  apply FIN.
  - assert (firstn n0 H = pre) as EP.
    { eapply (chain_prefix _ 0 pre (skipn n0 H) (sel ++ rest) (get_leo r)); [rewrite firstn_skipn; assumption| |assumption].
      apply (rel_chain _ _ F). destruct (inv_stores _ _ _ I) as ((_ & CL) & _). eapply chain_app; eassumption. }
    exists (length (pre ++ firstn k sel)), dr, (L ++ l). split; [assumption|]. split; [|split; [|assumption]].
    + rewrite app_assoc. rewrite EP in F.
      assert (firstn (length (pre ++ firstn k sel)) H = pre ++ firstn k sel) as ->.
      { rewrite EH. rewrite <- (firstn_skipn k sel) at 2. rewrite <- !app_assoc, app_assoc. rewrite firstn_app, firstn_all, Nat.sub_diag. cbn [firstn]. rewrite app_nil_r. reflexivity. }
      apply Forall2_app; assumption.
    + rewrite (log_start_ok _ _ _ _ _ IA'), <- (log_start_ok _ _ _ _ _ IA). assumption.
  - rewrite LEO. pose proof (total_nonneg l). lia.
  - exact HW1.
Qed.

Lemma same_views v : forall i q, view i v = Some q -> exists q', view i v = Some q' /\ i_hw q <= i_hw q' /\ i_leo q <= i_leo q'.
Proof. intros i q V. exists q. split; [assumption|lia]. Qed.
Lemma set_follower_same f i r : set_follower f i r i = r.
Proof. unfold set_follower. rewrite Z.eqb_refl. reflexivity. Qed.
Lemma set_follower_other f i j r : j <> i -> set_follower f i r j = f j.
Proof. intros N. unfold set_follower. apply Z.eqb_neq in N. rewrite N. reflexivity. Qed.

(** A change of one follower *)
Lemma follower_changed H s e i r : cinv H s ->
  (follower p i -> foll H (p_fconf p i) r /\ get_leo (k_follower s i) <= get_leo r /\ 0 <= get_hw r <= get_hw (k_leader s) /\ get_hw r <= get_leo r
     /\ (no_restart e -> get_hw (k_follower s i) <= get_hw r)) ->
  let s' := mkCluster (k_leader s) (k_views s) (set_follower (k_follower s) i r) (k_net s) in
  cinv H s' /\ no_less e s s'.
Proof.
  intros CI FR s'.
  assert (forall j, follower p j -> get_leo (k_follower s j) <= get_leo (k_follower s' j)) as LE.
  { intros j FJ. unfold s'; cbn [k_follower]. destruct (Z.eq_dec j i) as [->|NE]; [rewrite set_follower_same; apply FR; assumption|rewrite set_follower_other by assumption; lia]. }
  split.
  - constructor; unfold s'; cbn [k_leader k_views k_follower k_net].
    + exact (ci_leader _ _ CI).
    + exact (ci_good _ _ CI).
    + intros j FJ. destruct (Z.eq_dec j i) as [->|NE]; [rewrite set_follower_same; destruct (FR FJ) as (A & B & C & D & E0); auto|rewrite set_follower_other by assumption; apply (ci_foll _ _ CI); assumption].
    + exact (ci_keys _ _ CI).
    + intros x IX. pose proof (ci_views _ _ CI x IX) as V. pose proof (LE _ (view_follower _ _ _ CI IX)) as L. unfold s' in L; cbn [k_follower] in L. lia.
    + exact (ci_hw _ _ CI).
    + exact (ci_min _ _ CI).
    + exact (ci_hw0 _ _ CI).
    + intros m IM. eapply msg_same; [| |exact (ci_net _ _ CI m IM)]; [cbn [k_leader]; lia|exact LE].
  - split; [cbn; lia|]. split; [cbn; lia|]. split; [|apply same_views].
    intros j FJ. split; [apply LE; assumption|]. intros NR. unfold s'; cbn [k_follower].
    destruct (Z.eq_dec j i) as [->|NE]; [rewrite set_follower_same; apply FR; assumption|rewrite set_follower_other by assumption; lia].
Qed.

(** A change of the leader's storage that adds [new] *)
Lemma leader_changed H s e r dl' L' new : cinv H s ->
  H ++ new = dl' ++ L' -> inv (p_conf p) r L' -> chain 0 dl' (get_log_start r) -> Forall good new ->
  get_leo (k_leader s) <= get_leo r -> get_hw (k_leader s) <= get_hw r -> get_hw r <= get_leo r ->
  (get_hw r = get_hw (k_leader s) \/ k_views s = []) ->
  let s' := mkCluster r (k_views s) (k_follower s) (k_net s) in
  cinv (H ++ new) s' /\ no_less e s s'.
Proof.
  intros CI EH I CD G LEO HW HL HV s'. split.
  - constructor; unfold s'; cbn [k_leader k_views k_follower k_net].
    + exists dl', L'. auto.
    + apply Forall_app. split; [exact (ci_good _ _ CI)|assumption].
    + intros i FI. destruct (ci_foll _ _ CI i FI) as (A & B). split; [apply foll_grow; assumption|lia].
    + exact (ci_keys _ _ CI).
    + exact (ci_views _ _ CI).
    + destruct HV as [->|HV]; [exact (ci_hw _ _ CI)|]. right. rewrite HV. intros x [].
    + destruct (ci_min _ _ CI) as [V|(x & IX & XL)]; [left; assumption|]. right. exists x. split; [assumption|lia].
    + pose proof (ci_hw0 _ _ CI). lia.
    + intros m IM. eapply msg_grow; [| |exact (ci_net _ _ CI m IM)]; [cbn [k_leader]; assumption|intros; cbn [k_follower]; lia].
  - split; [cbn; lia|]. split; [cbn; lia|]. split; [|apply same_views]. intros i FI. unfold s'; cbn [k_follower]. split; [lia|intros _; lia].
Qed.

Lemma add_message H s e m : cinv H s -> msg_ok H s m ->
  let s' := mkCluster (k_leader s) (k_views s) (k_follower s) (m :: k_net s) in cinv H s' /\ no_less e s s'.
Proof.
  intros CI MO s'. split.
  - constructor; unfold s'; cbn [k_leader k_views k_follower k_net]; try apply CI.
    intros x [<-|IX]; [exact MO|]. exact (ci_net _ _ CI x IX).
  - split; [cbn; lia|]. split; [cbn; lia|]. split; [|apply same_views]. intros i FI. unfold s'; cbn [k_follower]. split; [lia|intros _; lia].
Qed.

Lemma number_good l : forall s e, chain s (number s l) e -> in_s 64 s -> in_s 64 e -> Forall raw_batch_ok l -> Forall (fun b => has_schema (b_hdr b) = false) l -> Forall good (number s l).
Proof.
  induction l as [|b l IH]; intros s e CH Hs He OK NS; cbn [number] in *; [constructor|]. inversion OK; inversion NS; subst.
  cbn [chain] in CH. destruct CH as (_ & P & CH). rewrite with_base_len in *. pose proof (chain_le _ _ _ CH) as LE.
  constructor.
  - split; [|assumption]. destruct H1 as (_ & H1). split; [assumption|exact H1].
  - eapply IH; [exact CH| |exact He|assumption|assumption]. unfold in_s in *. lia.
Qed.
Lemma inv_leo63 c r L : inv c r L -> 0 <= get_leo r < 2 ^ 63.
Proof.
  intros (s & ls & act & _ & H & ((_ & CH & _ & _ & _ & _ & B & E) & _) & S0). apply chain_le in CH. unfold get_leo. lia.
Qed.
Lemma in_s_pos x : 0 <= x < 2 ^ 63 -> in_s 64 x.
Proof. unfold in_s. change (2 ^ (64 - 1)) with (2 ^ 63). lia. Qed.

Lemma cstep H s e s' : cinv H s -> ReplicationSpec.step p s e s' -> exists new, cinv (H ++ new) s' /\ no_less e s s'.
Proof.
  intros CI ST. pose proof PO as (_ & _ & _ & CL & CF & MB).
  assert (forall s'' , cinv H s'' /\ no_less e s s'' -> exists new, cinv (H ++ new) s'' /\ no_less e s s'') as SAME by (intros s'' X; exists []; rewrite app_nil_r; assumption).
  destruct ST as [now l OK NS RM|i seen m FI SB UP|i now m NET RM|i FI|i q seen r v NET SB UP|a r CA OKa EX|i a r CA OKa EX|i now k r CK EX].
  - (* produce *)
    destruct (ci_leader _ _ CI) as (dl & L & EH & I & CD).
    unfold leader_write. destruct (total_records l =? 0).
    { cbn [fst]. apply SAME. pose proof (leader_changed H s (Produce now l) (k_leader s) dl L [] CI) as X. rewrite app_nil_r in X.
      apply X; auto; try lia. pose proof (ci_hw0 _ _ CI). lia. }
    set (upd := in_sync_replica (p_replicas p) =? 1).
    destruct (write_recordset (p_conf p) now (k_leader s) l upd) as [r res] eqn:W. cbn [fst].
    pose proof I as (s0 & ls & act & EL & IA).
    destruct (write_recordset_at _ _ _ _ _ _ _ _ _ _ CL IA OK RM W) as (j & ls' & act' & IA' & J & EC & LEO & D).
    exists (number (get_leo (k_leader s)) (firstn j l)).
    assert (inv (p_conf p) r (L ++ number (get_leo (k_leader s)) (firstn j l))) as I' by (exists s0, ls', act'; split; [rewrite EC, EL; reflexivity|assumption]).
    pose proof (inv_leo63 _ _ _ I) as B1. pose proof (inv_leo63 _ _ _ I') as B2. pose proof (total_nonneg (firstn j l)) as TN.
    assert (chain (get_leo (k_leader s)) (number (get_leo (k_leader s)) (firstn j l)) (get_leo r)) as CN.
    { destruct (inv_stores _ _ _ I') as ((_ & C') & _). apply chain_split in C' as (m & C1 & C2).
      destruct (inv_stores _ _ _ I) as ((_ & C) & _). rewrite (log_start_ok _ _ _ _ _ IA'), <- (log_start_ok _ _ _ _ _ IA) in C1. rewrite (chain_fun _ _ _ _ C1 C) in C2. assumption. }
    apply (leader_changed H s (Produce now l) r dl (L ++ number (get_leo (k_leader s)) (firstn j l))).
    + assumption.
    + rewrite EH, app_assoc. reflexivity.
    + assumption.
    + rewrite (log_start_ok _ _ _ _ _ IA'), <- (log_start_ok _ _ _ _ _ IA). assumption.
    + eapply number_good; [exact CN|apply in_s_pos; assumption|apply in_s_pos; assumption|apply Forall_firstn; assumption|apply Forall_firstn; assumption].
    + lia.
    + pose proof (ci_hw0 _ _ CI). destruct res; destruct D as (_ & ->); [lia|]. destruct upd; lia.
    + pose proof (ci_hw0 _ _ CI). destruct res; destruct D as (_ & ->); [lia|]. destruct upd; lia.
    + destruct res; destruct D as (_ & ->); [left; reflexivity|]. destruct upd eqn:U; [|left; reflexivity]. right.
      unfold upd in U. rewrite isr_value in U. pose proof (ci_keys _ _ CI) as K.
      destruct (follower_ids (p_leader p) (p_replicas p)); [|rewrite zlen_cons in U; pose proof (zlen_nonneg l0); lia]. destruct (k_views s); [reflexivity|discriminate].
  - (* send *)
    apply SAME. apply add_message; [assumption|]. cbn [msg_ok]. split; [assumption|].
    unfold follower_updates in UP. destruct (view i (k_views s)) as [q|] eqn:V; [|discriminate].
    destruct (is_valid q && negb (is_same q seen)); [|discriminate]. destruct SB as (SB1 & SB2).
    inversion UP; subst m. clear UP. cbn [s_hw s_records]. split; [lia|].
    destruct (ci_leader _ _ CI) as (dl & L & EH & I & CD).
    assert (exists pre sel rest n, H = pre ++ sel ++ rest /\ [] = ztake n (encs sel) /\ zlen (encs sel) < 2 ^ 31 /\ 0 <= n /\ (full = true -> zlen (encs sel) <= n)) as EMPTY.
    { exists H, [], [], 0. split; [rewrite app_nil_r; reflexivity|]. cbn. split; [reflexivity|]. split; [lia|]. split; [lia|]. intros; lia. }
    destruct (i_leo q <? i_leo seen) eqn:LT; [|exact EMPTY].
    destruct (Z.lt_ge_cases (i_leo q) (get_log_start (k_leader s))) as [LO|LO].
    { rewrite (read_below _ _ _ _ _ _ I LO). exact EMPTY. }
    destruct (read_sized _ _ _ (i_leo q) (p_max_bytes p) CL I ltac:(lia)) as (pre & sel & rest & E & SZ & RD & _). rewrite RD. cbn [sl_bytes].
    exists (dl ++ pre), sel, rest, (p_max_bytes p). split; [rewrite EH, E, <- app_assoc; reflexivity|]. split; [reflexivity|].
    split; [destruct CL as (CL & _); lia|]. split; [assumption|]. intros FU. specialize (FULL FU). lia.
  - (* deliver *)
    apply SAME. apply follower_changed; [assumption|]. intros FI. destruct (deliver_ok H s i now m CI NET RM) as (A & B & C & D & E0). pose proof (ci_foll _ _ CI i FI) as (_ & HB). repeat split; auto; lia.
  - (* report *)
    apply SAME. apply add_message; [assumption|]. cbn [msg_ok as_offset i_leo i_hw]. split; [assumption|]. pose proof (ci_foll _ _ CI i FI). lia.
  - (* receive *)
    destruct (ci_net _ _ CI _ NET) as (FI & QL). unfold update_states_from_followers in UP.
    assert (cinv H (mkCluster (k_leader s) (k_views s) (k_follower s) (k_net s)) /\ no_less (Receive i q seen) s (mkCluster (k_leader s) (k_views s) (k_follower s) (k_net s))) as NOTHING.
    { split; [destruct s; exact CI|]. split; [cbn; lia|]. split; [cbn; lia|]. split; [|apply same_views]. intros j FJ. cbn [k_follower]. split; [lia|intros _; lia]. }
    destruct (newer q seen) eqn:NW; [inversion UP; subst; apply SAME; assumption|].
    destruct (view i (k_views s)) as [w|] eqn:V; [|inversion UP; subst; apply SAME; assumption].
    destruct (update_info w q) as [w' ch] eqn:UI. destruct ch; [|inversion UP; subst; apply SAME; assumption].
    pose proof (update_info_le _ _ _ _ UI) as (W1 & W2 & W3 & W4).
    pose proof (ci_views _ _ CI _ (view_in _ _ _ V)) as VL. cbn [fst snd] in VL.
    set (v' := set_view i w' (k_views s)) in *.
    assert (forall x, In x v' -> i_hw (snd x) <= i_leo (snd x) <= get_leo (k_follower s (fst x))) as VW.
    { intros x IX. apply set_view_in in IX as [->|IX]; [cbn [fst snd]; lia|apply (ci_views _ _ CI); assumption]. }
    assert (forall j q0, view j (k_views s) = Some q0 -> exists q', view j v' = Some q' /\ i_hw q0 <= i_hw q' /\ i_leo q0 <= i_leo q') as VM.
    { intros j q0 VJ. destruct (Z.eq_dec j i) as [->|NE].
      - exists w'. rewrite V in VJ. inversion VJ; subst q0. split; [eapply set_view_same; exact V|lia].
      - exists q0. unfold v'. rewrite set_view_other by assumption. split; [assumption|lia]. }
    assert (forall t, (forall y, In y (k_views s) -> t <= i_leo (snd y)) -> forall x, In x v' -> t <= i_leo (snd x)) as VG.
    { intros t T x IX. eapply set_view_leos; [exact V|exact W2|exact T|exact IX]. }
    assert (map fst v' = follower_ids (p_leader p) (p_replicas p)) as VK by (unfold v'; rewrite set_view_keys; apply (ci_keys _ _ CI)).
    assert (forall hw, get_hw (k_leader s) <= hw -> hw <= get_leo (k_leader s) -> (hw = 0 \/ forall x, In x v' -> hw <= i_leo (snd x)) -> (exists x, In x v' /\ i_leo (snd x) <= hw) ->
      exists new, cinv (H ++ new) (mkCluster (update_hw (k_leader s) hw) v' (k_follower s) (k_net s)) /\ no_less (Receive i q seen) s (mkCluster (update_hw (k_leader s) hw) v' (k_follower s) (k_net s))) as FIN.
    { intros hw GE LE HV MN. apply SAME. split.
      - constructor; cbn [k_leader k_views k_follower k_net].
        + exact (ci_leader _ _ CI).
        + exact (ci_good _ _ CI).
        + intros j FJ. destruct (ci_foll _ _ CI j FJ) as (A & B). split; [assumption|]. change (get_hw (update_hw (k_leader s) hw)) with hw. lia.
        + assumption.
        + assumption.
        + exact HV.
        + right. exact MN.
        + change (get_hw (update_hw (k_leader s) hw)) with hw. change (get_leo (update_hw (k_leader s) hw)) with (get_leo (k_leader s)). pose proof (ci_hw0 _ _ CI). lia.
        + intros m IM. eapply msg_same; [| |exact (ci_net _ _ CI m IM)]; [cbn [k_leader]; exact GE|intros; cbn [k_follower]; lia].
      - split; [cbn [k_leader]; change (get_leo (update_hw (k_leader s) hw)) with (get_leo (k_leader s)); lia|]. split; [exact GE|]. split; [|exact VM]. intros j FJ. cbn [k_follower]. split; [lia|intros _; lia]. }
    assert (forall r0, r0 = k_leader s -> r0 = update_hw (k_leader s) (get_hw (k_leader s))) as RID by (intros r0 ->; destruct (k_leader s); reflexivity).
    assert ((exists x, In x v' /\ i_leo (snd x) <= get_hw (k_leader s)) -> exists new, cinv (H ++ new) (mkCluster (k_leader s) v' (k_follower s) (k_net s)) /\ no_less (Receive i q seen) s (mkCluster (k_leader s) v' (k_follower s) (k_net s))) as KEEP.
    { intros MN. enough (exists new, cinv (H ++ new) (mkCluster (update_hw (k_leader s) (get_hw (k_leader s))) v' (k_follower s) (k_net s)) /\ no_less (Receive i q seen) s (mkCluster (update_hw (k_leader s) (get_hw (k_leader s))) v' (k_follower s) (k_net s))) as X
        by (rewrite <- (RID (k_leader s) eq_refl) in X; exact X).
      apply FIN; [lia|pose proof (ci_hw0 _ _ CI); lia| |exact MN].
      destruct (ci_hw _ _ CI) as [Z0|HV]; [left; assumption|]. right. apply VG. assumption. }
    destruct SB as (SB1 & SB2). unfold newer in NW. apply orb_false_iff in NW as (NW1 & NW2).
    destruct (is_committed seen) eqn:IC.
    { inversion UP; subst. apply KEEP. unfold is_committed in IC.
      destruct (ci_min _ _ CI) as [E0|(x & IX & XL)]; [rewrite E0 in V; discriminate|].
      destruct (Z.eq_dec (fst x) i) as [EX|NE].
      - exists (i, w'). split; [apply view_in; eapply set_view_same; exact V|]. cbn [snd].
        assert (i_leo w <= get_hw (k_leader s)) by (rewrite (view_unique _ _ _ _ (keys_nodup _ _ CI) V IX EX); assumption). lia.
      - exists x. split; [|assumption]. apply set_view_kept; assumption. }
    pose proof isr_value as IS. set (isr := in_sync_replica (p_replicas p)) in *.
    assert (zlen v' = zlen (follower_ids (p_leader p) (p_replicas p))) as LV by (rewrite <- VK; unfold zlen; rewrite map_length; reflexivity).
    assert (isr < 65536) as I16 by (unfold isr, in_sync_replica, wrap_u; change (2 ^ 16) with 65536; apply Z.mod_pos_bound; lia).
    pose proof (compute_hw_spec (i_hw seen) isr (map (fun x => i_leo (snd x)) v') ltac:(pose proof (zlen_nonneg v'); lia)) as CS. cbv zeta in CS.
    assert (v' <> []) as NV.
    { intros E. pose proof (set_view_same i w' _ _ V) as X. fold v' in X. rewrite E in X. discriminate. }
    assert (Nat.max 1 (Nat.min (Z.to_nat (isr - 1)) (length (map (fun x => i_leo (snd x)) v'))) = length (map (fun x : Z * info => i_leo (snd x)) v')) as NN.
    { rewrite map_length. assert (Z.to_nat (isr - 1) = length v') by (unfold zlen in *; lia). destruct v'; [congruence|]. cbn [length] in *. lia. }
    rewrite NN in CS.
    destruct (compute_hw (i_hw seen) isr (map (fun x => i_leo (snd x)) v')) as [hw|].
    2: { inversion UP; subst. apply KEEP. apply reached_less in CS as (y & IY & LY). apply in_map_iff in IY as (x & <- & IX). exists x. split; [assumption|lia]. }
    inversion UP; subst r v. clear UP.
    destruct CS as (GT & (R1 & R2)).
    assert (forall x, In x v' -> hw <= i_leo (snd x)) as HWV.
    { intros x IX. eapply (reached_full (map (fun x => i_leo (snd x)) v')); [pose proof (reached_le (map (fun x : Z * info => i_leo (snd x)) v') hw); lia|]. apply (in_map (fun x => i_leo (snd x))) in IX. exact IX. }
    apply FIN.
    + destruct (ci_hw _ _ CI) as [Z0|HV]; [lia|]. destruct (Z.le_gt_cases (get_hw (k_leader s)) hw) as [LE|LT]; [assumption|]. exfalso.
      specialize (R2 (get_hw (k_leader s)) LT). rewrite reached_all in R2; [lia|]. intros y IY. apply in_map_iff in IY as (x & <- & IX). apply VG; assumption.
    + assert (exists x, In x v') as (x & IX) by (clear - NV; clearbody v'; destruct v' as [|x t]; [congruence|exists x; left; reflexivity]).
      pose proof (HWV x IX) as A. pose proof (VW x IX) as B.
      assert (follower p (fst x)) as FX by (apply (in_map fst) in IX; rewrite VK in IX; apply follower_ids_in in IX; exact IX).
      pose proof (foll_leo _ _ _ CI FX). lia.
    + right. assumption.
    + specialize (R2 (hw + 1) ltac:(lia)). apply reached_less in R2 as (y & IY & LY). apply in_map_iff in IY as (x & <- & IX). exists x. split; [assumption|lia].
  - (* retention at the leader *)
    destruct (ci_leader _ _ CI) as (dl & L & EH & I & CD).
    destruct (ReplicaProofs.step _ _ _ _ _ CL I OKa EX) as (L' & I' & dr & kept & new & E1 & E2 & C1 & C2 & AB & _).
    assert (new = []) as -> by (destruct CA as [->|(nw & ->)]; exact AB). cbn [chain] in C2. rewrite app_nil_r in E2. subst L'.
    apply SAME. pose proof (leader_changed H s (CleanLeader a) r (dl ++ dr) kept [] CI) as X. rewrite app_nil_r in X.
    assert (get_hw r = get_hw (k_leader s)) as HW.
    { destruct CA as [->|(nw & ->)]; cbn [exec] in EX; inversion EX; subst r.
      - unfold enforce_size. cbv zeta. destruct (0 <? _); reflexivity.
      - unfold enforce_ttl. destruct (filter _ _); reflexivity. }
    apply X; try lia; auto.
    + rewrite EH, E1, app_assoc. reflexivity.
    + eapply chain_app; eassumption.
    + pose proof (ci_hw0 _ _ CI). lia.
  - (* retention at a follower *)
    apply SAME. apply follower_changed; [assumption|]. intros FI. destruct (ci_foll _ _ CI i FI) as ((n & dr & L & I & F & CD & SH) & HWL).
    destruct (ReplicaProofs.step _ _ _ _ _ (CF i) I OKa EX) as (L' & I' & dr' & kept & new & E1 & E2 & C1 & C2 & AB & _).
    assert (new = []) as -> by (destruct CA as [->|(nw & ->)]; exact AB). cbn [chain] in C2. rewrite app_nil_r in E2. subst L'.
    assert (get_hw r = get_hw (k_follower s i) /\ r_short r = r_short (k_follower s i)) as (HW & SS).
    { destruct CA as [->|(nw & ->)]; cbn [exec] in EX; inversion EX; subst r.
      - unfold enforce_size. cbv zeta. destruct (0 <? _); split; reflexivity.
      - unfold enforce_ttl. destruct (filter _ _); split; reflexivity. }
    split; [|lia]. exists n, (dr ++ dr'), kept. split; [assumption|]. split; [rewrite <- app_assoc, <- E1; assumption|]. split; [eapply chain_app; eassumption|congruence].
  - (* restart of a follower *)
    apply SAME. apply follower_changed; [assumption|]. intros FI. destruct (ci_foll _ _ CI i FI) as ((n & dr & L & I & F & CD & SH) & HWL).
    pose proof I as (s0 & ls & act & EL & IA). cbn [exec] in EX.
    destruct (restart_at (p_fconf p i) now s0 _ ls act k (CF i) IA) as (r1 & I1 & LEO & HL & S1 & HW & LD). rewrite LD in EX.
    destruct (_ <? _) in EX; inversion EX; subst r1. clear EX LD.
    pose proof (inv_leo63 _ _ _ I) as L0. split; [|split; [lia|split; [unfold get_hw in *; lia|split; [unfold get_hw; lia|intros []]]]].
    exists n, dr, L. split; [exists s0, ls, act; auto|]. split; [assumption|]. split; [|assumption].
    rewrite (log_start_ok _ _ _ _ _ I1), <- (log_start_ok _ _ _ _ _ IA). assumption.
Qed.

Lemma start_cinv : cinv [] (start p).
Proof.
  pose proof PO as (_ & _ & _ & CL & CF & MB).
  constructor; unfold start; cbn [k_leader k_views k_follower k_net].
  - exists [], []. split; [reflexivity|]. split; [apply fresh_inv; assumption|reflexivity].
  - constructor.
  - intros i FI. split; [|cbn; lia]. exists 0%nat, [], []. split; [apply fresh_inv; apply CF|]. split; [constructor|]. split; reflexivity.
  - unfold initial_views. rewrite map_map. cbn [fst]. apply map_id.
  - intros x IX. unfold initial_views in IX. apply in_map_iff in IX as (i & <- & _). cbn. lia.
  - left. reflexivity.
  - destruct (initial_views (p_leader p) (p_replicas p)) as [|x v] eqn:E; [left; reflexivity|]. right. exists x. split; [left; reflexivity|].
    assert (In x (initial_views (p_leader p) (p_replicas p))) as IX by (rewrite E; left; reflexivity). apply in_map_iff in IX as (i & <- & _). cbn. lia.
  - cbn. lia.
  - intros m [].
Qed.
Lemma runs_cinv P s : runs p P (start p) s -> exists H, cinv H s.
Proof.
  intros R. remember (start p) as s0 eqn:E. induction R as [s|s s1 s2 e R IH PE ST]; [subst; exists []; apply start_cinv|].
  destruct (IH E) as (H & CI). destruct (cstep _ _ _ _ CI ST) as (new & CI' & _). eauto.
Qed.
End Cluster.
