From Verif Require Import ReplicationModel ReplicationSpec StorageSpec RecordSpec RecordProofs StorageProofs ReplicaProofs StorageClaims ReplicationProofs ClusterProofs ReplicationClaims WireProofs ListFacts FailoverModel FailoverSpec.

(** * Batches that are stored as the same bytes *)
Definition sim (b b' : batch bytes) : Prop := received raw_codec b = received raw_codec b'.
Lemma rel_received_eq b b' : rel true b b' -> b' = received raw_codec b.
Proof. intros (rs & -> & _ & E). rewrite (E eq_refl). reflexivity. Qed.
Lemma received_idem b : received raw_codec (received raw_codec b) = received raw_codec b.
Proof.
  unfold received, received_with, received_hdr, calc_batch_len, batch_tail, has_schema, with_crc.
  cbn [b_base b_hdr b_recs b_schema h_epoch h_magic h_attr h_last_delta h_first_ts h_max_ts h_pid h_pepoch h_seq].
  match goal with |- context [if ?x then b_schema b else 0] => destruct x end; reflexivity.
Qed.
Lemma rel_sim b b' : rel true b b' -> sim b b'.
Proof. intros R. apply rel_received_eq in R. subst. symmetry. apply received_idem. Qed.
Lemma sim_refl b : sim b b. Proof. reflexivity. Qed.
Lemma sim_sym b b' : sim b b' -> sim b' b. Proof. unfold sim. congruence. Qed.
Lemma sim_trans a b c : sim a b -> sim b c -> sim a c. Proof. unfold sim. congruence. Qed.
Lemma sim_base b b' : sim b b' -> b_base b' = b_base b.
Proof. intros S. apply (f_equal b_base) in S. symmetry. exact S. Qed.
Lemma sim_len b b' : sim b b' -> records_len b' = records_len b.
Proof. intros S. apply (f_equal records_len) in S. symmetry. exact S. Qed.
Lemma received_rel b : rel true b (received raw_codec b).
Proof. exists (b_recs b). split; [reflexivity|]. split; [|auto]. exists (zlen (b_recs b)). rewrite ztake_all by lia. reflexivity. Qed.
Lemma sim_enc b b' : sim b b' -> renc b' = renc b.
Proof. intros S. rewrite <- (rel_enc true _ _ eq_refl (received_rel b)), <- (rel_enc true _ _ eq_refl (received_rel b')), S. reflexivity. Qed.

Notation sims := (Forall2 sim).
Lemma sims_refl l : sims l l.
Proof. induction l; constructor; [reflexivity|assumption]. Qed.
Lemma sims_sym l l' : sims l l' -> sims l' l.
Proof. induction 1; constructor; [apply sim_sym; assumption|assumption]. Qed.
Lemma sims_trans a b c : sims a b -> sims b c -> sims a c.
Proof. intros S. revert c. induction S as [|x y a b R S IH]; intros c T; inversion T; subst; constructor; [eapply sim_trans; eassumption|auto]. Qed.
Lemma sims_chain l l' : sims l l' -> forall s e, chain s l e -> chain s l' e.
Proof.
  induction 1 as [|b b' l l' R S IH]; intros s e; [auto|]. cbn [chain]. rewrite (sim_base _ _ R), (sim_len _ _ R). intros (A & B & C). auto.
Qed.
Lemma sims_encs l l' : sims l l' -> flat_map renc l' = flat_map renc l.
Proof. induction 1 as [|b b' l l' R S IH]; [reflexivity|]. cbn [flat_map]. rewrite IH, (sim_enc _ _ R). reflexivity. Qed.
Lemma sims_firstn n l l' : sims l l' -> sims (firstn n l) (firstn n l').
Proof. intros S. revert n. induction S; intros [|n]; cbn [firstn]; constructor; auto. Qed.
Lemma rels_sims l l' : Forall2 (rel true) l l' -> sims l l'.
Proof. induction 1; constructor; [apply rel_sim; assumption|assumption]. Qed.

Lemma sims_holds r l l' : sims l l' -> holds r l' -> holds r l.
Proof.
  intros S (C & rm & kp & -> & (LB & CK) & CR). split; [eapply sims_chain; [apply sims_sym; exact S|exact C]|].
  apply Forall2_app_inv_r in S as (a & b & Sa & Sb & ->). exists a, b. split; [reflexivity|].
  split; [split|].
  - rewrite LB. apply sims_encs. assumption.
  - eapply sims_chain; [apply sims_sym; exact Sb|exact CK].
  - eapply sims_chain; [apply sims_sym; exact Sa|exact CR].
Qed.

(** Of two beginnings of one log the one that ends first is a beginning of the other. *)
Lemma chain_shorter A : forall s G e f B C, A ++ B = G ++ C -> chain s A e -> chain s G f -> e <= f -> exists D, G = A ++ D.
Proof.
  induction A as [|a A IH]; intros s G e f B C E CA CG L; [exists G; reflexivity|].
  destruct G as [|x G].
  - cbn [chain] in *. destruct CA as (_ & P & CA). apply chain_le in CA. lia.
  - inversion E; subst x. cbn [chain] in CA, CG. destruct CA as (_ & _ & CA). destruct CG as (_ & _ & CG).
    destruct (IH _ _ _ _ _ _ H1 CA CG L) as (D & ->). exists D. reflexivity.
Qed.

(** * Followers *)
Definition has (H : list (batch bytes)) (c : config) (r : replica) : Prop :=
  exists dr L, inv c r L /\ sims H (dr ++ L) /\ chain 0 dr (get_log_start r).
Definition fol (H : list (batch bytes)) (c : config) (r : replica) : Prop := exists n, has (firstn n H) c r.
Lemma has_holds H c r : has H c r -> holds r H.
Proof.
  intros (dr & L & I & S & CD). eapply sims_holds; [exact S|]. destruct (inv_stores _ _ _ I) as (ST & _).
  split; [eapply chain_app; [exact CD|apply ST]|]. exists dr, L. auto.
Qed.
Lemma has_chain H c r : has H c r -> chain 0 H (get_leo r).
Proof. intros X. apply has_holds in X. apply X. Qed.
Lemma has_sims H G c r : sims G H -> has H c r -> has G c r.
Proof. intros S (dr & L & I & S' & CD). exists dr, L. split; [assumption|]. split; [eapply sims_trans; eassumption|assumption]. Qed.
Lemma has_hw H c r o : has H c r -> has H c (update_hw r o).
Proof. intros X. exact X. Qed.

Lemma fol_sims H G c r : sims G H -> fol H c r -> fol G c r.
Proof. intros S (n & X). exists n. eapply has_sims; [apply sims_firstn; exact S|exact X]. Qed.
Lemma fol_grow H new c r : fol H c r -> fol (H ++ new) c r.
Proof.
  intros (n & X). exists (Nat.min n (length H)). rewrite firstn_app. replace (Nat.min n (length H) - length H)%nat with 0%nat by lia. cbn [firstn]. rewrite app_nil_r.
  destruct (Nat.min_spec n (length H)) as [[_ ->]|[LE ->]]; [assumption|]. rewrite firstn_all. rewrite firstn_all2 in X by assumption. assumption.
Qed.
Lemma fol_leo H e c r : fol H c r -> chain 0 H e -> get_leo r <= e.
Proof. intros (n & X) C. apply has_chain in X. destruct (chain_firstn n _ _ _ C) as (m & A & B). rewrite (chain_fun _ _ _ _ X A). assumption. Qed.

(** What a message may contain *)
Definition part_of (H : list (batch bytes)) (records : bytes) : Prop :=
  exists pre sel rest n, H = pre ++ sel ++ rest /\ records = ztake n (encs sel) /\ zlen (encs sel) <= n /\ zlen (encs sel) < 2 ^ 31.
Lemma part_grow H new rec : part_of H rec -> part_of (H ++ new) rec.
Proof. intros (pre & sel & rest & n & -> & X). exists pre, sel, (rest ++ new), n. rewrite <- !app_assoc. auto. Qed.

Lemma deliver_has H e c now r m : config_ok c -> Forall good H -> chain 0 H e -> fol H c r -> r_short r = false -> part_of H (s_records m) ->
  room r (receive (s_records m)) ->
  let r' := deliver c now r m in
  fol H c r' /\ r_short r' = false /\ get_leo r <= get_leo r' /\ (get_hw r' = get_hw r \/ (get_hw r' = s_hw m /\ get_hw r < s_hw m <= get_leo r')).
Proof.
  intros CO G CH F SH (pre & sel & rest & n & EH & ES & NL & SZ) RM r'.
  assert (forall r1, fol H c r1 -> r_short r1 = false -> get_leo r <= get_leo r1 -> get_hw r1 = get_hw r ->
     let r2 := follow_hw r1 (s_hw m) in
     fol H c r2 /\ r_short r2 = false /\ get_leo r <= get_leo r2 /\ (get_hw r2 = get_hw r \/ (get_hw r2 = s_hw m /\ get_hw r < s_hw m <= get_leo r2))) as FIN.
  { intros r1 F1 S1 L1 H1. cbv zeta. destruct (follow_hw_ok r1 (s_hw m)) as [->|[-> HH]].
    - auto.
    - split; [destruct F1 as (k & X); exists k; exact X|]. split; [exact S1|]. split; [exact L1|]. right. change (get_hw (update_hw r1 (s_hw m))) with (s_hw m). change (get_leo (update_hw r1 (s_hw m))) with (get_leo r1). lia. }
  assert (Forall raw_batch_ok sel /\ Forall (fun b => has_schema (b_hdr b) = false) sel) as (OKs & NS).
  { rewrite EH in G. apply Forall_app in G as (_ & G). apply Forall_app in G as (G & _).
    split; eapply Forall_impl; try exact G; intros b (A & B); assumption. }
  unfold r', deliver, update_from_leader. rewrite ES in *.
  destruct (receive_rel true sel n OKs SZ ltac:(pose proof (zlen_nonneg (encs sel)); lia) ltac:(auto)) as (k & RL).
  set (l := receive (ztake n (encs sel))) in *. clearbody l.
  destruct (0 <? total_records l) eqn:T; [|apply FIN; [assumption|assumption|lia|reflexivity]].
  destruct (rset_base_offset l =? get_leo r) eqn:B; [|apply FIN; [assumption|assumption|lia|reflexivity]].
  assert (Forall raw_batch_ok l) as OKl by (eapply rel_oks; [apply Forall_firstn; exact OKs|exact RL]).
  assert (Forall (fun b => has_schema (b_hdr b) = false) l) as NSl by (eapply rel_schemas; [apply Forall_firstn; exact NS|exact RL]).
  pose proof CH as CL. rewrite EH in CL. apply chain_split in CL as (x & CP & CL). apply chain_split in CL as (y & CS & CR).
  assert (exists z, chain x l z) as (z & Cl).
  { destruct (chain_firstn k _ _ _ CS) as (z & CZ & _). exists z. apply (rel_chain _ _ _ RL). assumption. }
  assert (x = get_leo r) as EX.
  { destruct l as [|b l]; [cbn in T; discriminate|]. cbn [rset_base_offset] in B. cbn [chain] in Cl. lia. }
  subst x.
  destruct F as (n0 & X). pose proof (has_chain _ _ _ X) as CX. destruct X as (dr & L & I & S & CD).
  assert (Forall (fun b => 0 < records_len b /\ has_schema (b_hdr b) = false) l) as Gl.
  { pose proof (chain_pos _ _ _ Cl) as P. clear - P NSl. induction P; inversion NSl; subst; constructor; auto. }
  pose proof (all_or_nothing c r now l L false CO I OKl RM SH Gl) as AN.
  destruct (write_recordset c now r l false) as [r1 res] eqn:W.
  destruct res as [er|]; [rewrite AN; split; [exists n0, dr, L; auto|]; split; [assumption|]; split; [lia|left; reflexivity]|].
  pose proof I as (s0 & ls & act & EL & IA).
  destruct (write_recordset_at _ _ _ _ _ _ _ _ _ _ CO IA OKl RM W) as (j & ls' & act' & IA' & J & EC & LEO & EJ & HW1).
  subst j. rewrite firstn_all in *. rewrite (number_chain_id _ _ _ Cl) in EC.
  assert (inv c r1 (L ++ l)) as I1.
  { exists s0, ls', act'. split; [|assumption]. rewrite EC, EL. reflexivity. }
  apply FIN.
  - assert (firstn n0 H = pre) as EP.
    { eapply (chain_prefix _ 0 pre (skipn n0 H) (sel ++ rest) (get_leo r)); [rewrite firstn_skipn; assumption|exact CX|assumption]. }
    exists (length (pre ++ firstn k sel)), dr, (L ++ l). split; [assumption|]. split.
    + rewrite app_assoc. rewrite EP in S.
      assert (firstn (length (pre ++ firstn k sel)) H = pre ++ firstn k sel) as ->.
      { rewrite EH. rewrite <- (firstn_skipn k sel) at 2. rewrite <- !app_assoc, app_assoc. rewrite firstn_app, firstn_all, Nat.sub_diag. cbn [firstn]. rewrite app_nil_r. reflexivity. }
      apply Forall2_app; [assumption|apply rels_sims; exact RL].
    + rewrite (log_start_ok _ _ _ _ _ IA'), <- (log_start_ok _ _ _ _ _ IA). assumption.
  - exact AN.
  - rewrite LEO. pose proof (total_nonneg l). lia.
  - exact HW1.
Qed.

Lemma clean_has H c r a r' : config_ok c -> has H c r -> cleaning a -> op_ok c r a -> exec c r a = Done r' ->
  has H c r' /\ get_leo r' = get_leo r /\ get_hw r' = get_hw r /\ r_short r' = r_short r.
Proof.
  intros CO X CA OKa EX. pose proof (has_chain _ _ _ X) as C0. destruct X as (dr & L & I & S & CD).
  destruct (ReplicaProofs.step _ _ _ _ _ CO I OKa EX) as (L' & I' & dr' & kept & new & E1 & E2 & C1 & C2 & AB & _).
  assert (new = []) as -> by (destruct CA as [->|(nw & ->)]; exact AB). cbn [chain] in C2. rewrite app_nil_r in E2. subst L'.
  assert (get_hw r' = get_hw r /\ r_short r' = r_short r) as (HW & SS).
  { destruct CA as [->|(nw & ->)]; cbn [exec] in EX; inversion EX; subst r'.
    - unfold enforce_size. cbv zeta. destruct (0 <? _); split; reflexivity.
    - unfold enforce_ttl. destruct (filter _ _); split; reflexivity. }
  split; [|auto]. exists (dr ++ dr'), kept. split; [assumption|]. split; [rewrite <- app_assoc, <- E1; assumption|eapply chain_app; eassumption].
Qed.
Lemma restart_has H c r now k r' : config_ok c -> has H c r -> exec c r (Restart now k) = Done r' ->
  has H c r' /\ get_leo r' = get_leo r /\ get_hw r' = Z.min (get_leo r) (ckpt_value (m_base (r_active r)) k) /\ r_short r' = false.
Proof.
  intros CO (dr & L & I & S & CD) EX. pose proof I as (s0 & ls & act & EL & IA). cbn [exec] in EX.
  destruct (restart_at c now s0 r ls act k CO IA) as (r1 & I1 & LEO & HL & S1 & HW & LD). rewrite LD in EX.
  destruct (_ <? _) in EX; inversion EX; subst r1. split; [|auto].
  exists dr, L. split; [exists s0, ls, act; auto|]. split; [assumption|].
  rewrite (log_start_ok _ _ _ _ _ I1), <- (log_start_ok _ _ _ _ _ IA). assumption.
Qed.

(** * The invariant *)
Section Failover.
Variable g : members.
Hypothesis GO : members_ok g.

Lemma conf_ok i : config_ok (g_conf g i). Proof. apply GO. Qed.
Lemma led_ok l : In l (g_replicas g) -> params_ok (led_by g l).
Proof.
  intros I. destruct GO as (ND & LE & C). split; [assumption|]. split; [assumption|]. split; [assumption|]. split; [apply C|]. split; [intros i; apply C|].
  cbn. destruct (C l) as (CO & SM). destruct CO as (CO & _). cbn in *. lia.
Qed.
Lemma full_ok l : true = true -> c_seg_max (p_conf (led_by g l)) <= p_max_bytes (led_by g l).
Proof. intros _. apply GO. Qed.

Definition fmsg (H : list (batch bytes)) (y : system) (m : msg) : Prop :=
  match m with
  | ToFollower i m => follower (led_by g (y_leader y)) i /\ (forall j, takes_part g y j -> s_hw m <= get_leo (node y j)) /\ part_of H (s_records m)
  | ToLeader i q => follower (led_by g (y_leader y)) i /\ ~ In i (y_lost y) /\ i_hw q <= i_leo q <= get_leo (k_follower (y_cluster y) i)
  end.
Record finv (H : list (batch bytes)) (y : system) : Prop := {
  fi_part : takes_part g y (y_leader y);
  fi_leader : has H (g_conf g (y_leader y)) (k_leader (y_cluster y));
  fi_good : Forall good H;
  fi_fol : forall i, follower (led_by g (y_leader y)) i -> ~ In i (y_lost y) -> fol H (g_conf g i) (k_follower (y_cluster y) i) /\ r_short (k_follower (y_cluster y) i) = false;
  fi_keys : map fst (k_views (y_cluster y)) = follower_ids (y_leader y) (g_replicas g);
  fi_views : forall x, In x (k_views (y_cluster y)) ->
     if in_dec Z.eq_dec (fst x) (y_lost y) then snd x = default_info
     else i_hw (snd x) <= i_leo (snd x) <= get_leo (k_follower (y_cluster y) (fst x));
  fi_hw : forall i j, takes_part g y i -> takes_part g y j -> 0 <= get_hw (node y i) <= get_leo (node y j);
  fi_net : forall m, In m (k_net (y_cluster y)) -> fmsg H y m;
}.

Lemma part_follower y i : takes_part g y i -> i <> y_leader y -> follower (led_by g (y_leader y)) i.
Proof. intros (A & _) N. split; assumption. Qed.
Lemma node_leader y : node y (y_leader y) = k_leader (y_cluster y).
Proof. unfold node. rewrite Z.eqb_refl. reflexivity. Qed.
Lemma nl l lost s : node (mkSystem l lost s) l = k_leader s.
Proof. unfold node. cbn [y_leader y_cluster]. rewrite Z.eqb_refl. reflexivity. Qed.
Lemma node_follower y i : i <> y_leader y -> node y i = k_follower (y_cluster y) i.
Proof. intros N. unfold node. apply Z.eqb_neq in N. rewrite N. reflexivity. Qed.
Lemma node_has H y i : finv H y -> takes_part g y i -> fol H (g_conf g i) (node y i).
Proof.
  intros FI TP. destruct (Z.eq_dec i (y_leader y)) as [->|N].
  - rewrite node_leader. exists (length H). rewrite firstn_all. apply (fi_leader _ _ FI).
  - rewrite node_follower by assumption. apply (fi_fol _ _ FI); [apply part_follower; assumption|apply TP].
Qed.
Lemma node_le H y i : finv H y -> takes_part g y i -> get_leo (node y i) <= get_leo (k_leader (y_cluster y)).
Proof. intros FI TP. eapply fol_leo; [apply (node_has _ _ _ FI TP)|apply (has_chain _ _ _ (fi_leader _ _ FI))]. Qed.

(** What a step keeps: who takes part did so before, no log gets shorter, and
    the beginning of the log that all have stays. *)
Definition carries (H H' : list (batch bytes)) (y y' : system) : Prop :=
  (forall i, takes_part g y' i -> takes_part g y i /\ get_leo (node y i) <= get_leo (node y' i))
  /\ forall A B e, H = A ++ B -> chain 0 A e -> (forall i, takes_part g y' i -> e <= get_leo (node y i)) ->
       exists A' B', H' = A' ++ B' /\ sims A A'.

Lemma carries_app H new y y' : (forall i, takes_part g y' i -> takes_part g y i /\ get_leo (node y i) <= get_leo (node y' i)) -> carries H (H ++ new) y y'.
Proof. intros K. split; [assumption|]. intros A B e -> _ _. exists A, (B ++ new). rewrite <- app_assoc. split; [reflexivity|apply sims_refl]. Qed.
Lemma carries_same H y y' : (forall i, takes_part g y' i -> takes_part g y i /\ get_leo (node y i) <= get_leo (node y' i)) -> carries H H y y'.
Proof. intros K. rewrite <- (app_nil_r H) at 2. apply carries_app. assumption. Qed.

(** One follower changes. *)
Lemma fol_changed H l lost s i r : finv H (mkSystem l lost s) -> ~ In i lost -> follower (led_by g l) i ->
  fol H (g_conf g i) r -> r_short r = false -> get_leo (k_follower s i) <= get_leo r ->
  0 <= get_hw r -> (forall j, takes_part g (mkSystem l lost s) j -> get_hw r <= get_leo (node (mkSystem l lost s) j)) ->
  let y' := mkSystem l lost (mkCluster (k_leader s) (k_views s) (set_follower (k_follower s) i r) (k_net s)) in
  finv H y' /\ carries H H (mkSystem l lost s) y'.
Proof.
  intros FI NL FO FR SH LE H0 HW y'. set (y := mkSystem l lost s) in *.
  assert (forall j, get_leo (k_follower s j) <= get_leo (set_follower (k_follower s) i r j)) as GL.
  { intros j. destruct (Z.eq_dec j i) as [->|N]; [rewrite set_follower_same; assumption|rewrite set_follower_other by assumption; lia]. }
  assert (forall j, get_leo (node y j) <= get_leo (node y' j)) as GN.
  { intros j. unfold node, y, y'; cbn [y_leader y_cluster k_leader k_follower]. destruct (j =? l); [lia|apply GL]. }
  split; [|apply carries_same; intros j TP; split; [exact TP|apply GN]].
  constructor; unfold y'; cbn [y_leader y_lost y_cluster k_leader k_views k_follower k_net].
  - exact (fi_part _ _ FI).
  - exact (fi_leader _ _ FI).
  - exact (fi_good _ _ FI).
  - intros j FJ NJ. destruct (Z.eq_dec j i) as [->|N]; [rewrite set_follower_same; auto|rewrite set_follower_other by assumption; apply (fi_fol _ _ FI); assumption].
  - exact (fi_keys _ _ FI).
  - intros x IX. pose proof (fi_views _ _ FI x IX) as V. cbn [y_lost y_cluster y] in V. destruct (in_dec _ _ _); [assumption|]. specialize (GL (fst x)). lia.
  - intros a b TA TB. change (mkSystem l lost _) with y'. specialize (GN b). pose proof (fi_hw _ _ FI a b TA TB) as K.
    destruct (Z.eq_dec a i) as [->|N].
    + assert (node y' i = r) as ->. { rewrite node_follower by apply FO. unfold y'. cbn [y_cluster k_follower]. apply set_follower_same. } specialize (HW b TB). lia.
    + assert (node y' a = node y a) as ->. { unfold node, y', y. cbn [y_leader y_cluster k_leader k_follower]. destruct (a =? l); [reflexivity|]. apply set_follower_other. assumption. } lia.
  - intros m IM. pose proof (fi_net _ _ FI m IM) as K. destruct m as [j m|j q]; cbn [fmsg y_leader y_lost y_cluster y k_follower] in *.
    + destruct K as (A & B & C). split; [assumption|]. split; [|assumption]. intros b TB. specialize (B b TB). specialize (GN b). unfold y' in GN. lia.
    + destruct K as (A & B & C). split; [assumption|]. split; [assumption|]. specialize (GL j). lia.
Qed.

(** The leader's storage changes. *)
Lemma leader_changes H new l lost s r : finv H (mkSystem l lost s) -> has (H ++ new) (g_conf g l) r -> Forall good new ->
  get_leo (k_leader s) <= get_leo r -> 0 <= get_hw r -> get_hw r <= get_leo r ->
  (forall j, takes_part g (mkSystem l lost s) j -> j <> l -> get_hw r <= get_leo (k_follower s j)) ->
  let y' := mkSystem l lost (mkCluster r (k_views s) (k_follower s) (k_net s)) in
  finv (H ++ new) y' /\ carries H (H ++ new) (mkSystem l lost s) y'.
Proof.
  intros FI HS GN LE H0 HL HW y'. set (y := mkSystem l lost s) in *.
  assert (forall j, get_leo (node y j) <= get_leo (node y' j)) as GL.
  { intros j. unfold node, y, y'; cbn [y_leader y_cluster k_leader k_follower]. destruct (j =? l); lia. }
  split; [|apply carries_app; intros j TP; split; [exact TP|apply GL]].
  constructor; unfold y'; cbn [y_leader y_lost y_cluster k_leader k_views k_follower k_net].
  - exact (fi_part _ _ FI).
  - exact HS.
  - apply Forall_app. split; [exact (fi_good _ _ FI)|assumption].
  - intros i FO NJ. destruct (fi_fol _ _ FI i FO NJ) as (A & B). split; [apply fol_grow; exact A|exact B].
  - exact (fi_keys _ _ FI).
  - exact (fi_views _ _ FI).
  - intros a b TA TB. change (mkSystem l lost _) with y'. specialize (GL b). pose proof (fi_hw _ _ FI a b TA TB) as K.
    destruct (Z.eq_dec a l) as [->|N].
    + assert (node y' l = r) as -> by apply (node_leader y'). split; [assumption|].
      destruct (Z.eq_dec b l) as [->|NB]; [assert (node y' l = r) as -> by apply (node_leader y'); exact HL|]. rewrite (node_follower y') by exact NB. apply HW; assumption.
    + assert (node y' a = node y a) as ->. { rewrite !node_follower by exact N. reflexivity. } lia.
  - intros m IM. pose proof (fi_net _ _ FI m IM) as K. destruct m as [j m|j q]; cbn [fmsg y_leader y_lost y_cluster y k_follower] in *.
    + destruct K as (A & B & C). split; [assumption|]. split; [|apply part_grow; assumption]. intros b TB. specialize (B b TB). specialize (GL b). unfold y' in GL. lia.
    + exact K.
Qed.

Lemma new_message H l lost s m : finv H (mkSystem l lost s) -> fmsg H (mkSystem l lost s) m ->
  let y' := mkSystem l lost (mkCluster (k_leader s) (k_views s) (k_follower s) (m :: k_net s)) in
  finv H y' /\ carries H H (mkSystem l lost s) y'.
Proof.
  intros FI MO y'. split; [|apply carries_same; intros j TP; split; [exact TP|apply Z.le_refl]].
  constructor; unfold y'; cbn [y_leader y_lost y_cluster k_leader k_views k_follower k_net]; try apply FI.
  intros x [<-|IX]; [exact MO|exact (fi_net _ _ FI x IX)].
Qed.

Lemma isr_one l i : In l (g_replicas g) -> in_sync_replica (g_replicas g) = 1 -> In i (g_replicas g) -> i = l.
Proof.
  intros IL E II. pose proof (isr_value _ (led_ok l IL) true) as V. cbn [led_by p_replicas p_leader] in V. rewrite E in V.
  destruct (Z.eq_dec i l) as [|N]; [assumption|]. assert (In i (follower_ids l (g_replicas g))) as K by (apply follower_ids_in; auto).
  destruct (follower_ids l (g_replicas g)); [destruct K|]. rewrite zlen_cons in V. pose proof (zlen_nonneg l0). lia.
Qed.

Lemma act_ok H l lost s e s' : finv H (mkSystem l lost s) -> acts g (mkSystem l lost s) e -> ReplicationSpec.step (led_by g l) s e s' ->
  exists H', finv H' (mkSystem l lost s') /\ carries H H' (mkSystem l lost s) (mkSystem l lost s').
Proof.
  intros FI AC ST. pose proof (fi_part _ _ FI) as (IL & NLL). cbn [y_leader y_lost] in IL, NLL.
  pose proof (fi_leader _ _ FI) as HL. cbn [y_leader y_cluster] in HL.
  assert (takes_part g (mkSystem l lost s) l) as TL by (split; assumption).
  pose proof (fi_hw _ _ FI l l TL TL) as HWL. rewrite (nl l lost s) in HWL. cbn [y_cluster] in HWL.
  assert (forall j, takes_part g (mkSystem l lost s) j -> j <> l -> get_hw (k_leader s) <= get_leo (k_follower s j)) as HWF.
  { intros j TJ NJ. pose proof (fi_hw _ _ FI l j TL TJ) as K. rewrite (nl l lost s), (node_follower (mkSystem l lost s)) in K by exact NJ. apply K. }
  destruct ST as [now b OK NS RM|i seen m FO SB UP|i now m NET RM|i FO|i q seen r v NET SB UP|a r CA OKa EX|i a r CA OKa EX|i now k r CK EX].
  - (* produce *)
    cbn [led_by p_conf p_replicas] in *. unfold leader_write. destruct (total_records b =? 0).
    { cbn [fst]. exists H. destruct s as [ld vs fl nt]. split; [exact FI|]. apply carries_same. intros j TJ. split; [exact TJ|apply Z.le_refl]. }
    set (upd := in_sync_replica (g_replicas g) =? 1).
    destruct (write_recordset (g_conf g l) now (k_leader s) b upd) as [r res] eqn:W. cbn [fst].
    destruct HL as (dr & L & I & S & CD). pose proof I as (s0 & ls & act & EL & IA).
    destruct (write_recordset_at _ _ _ _ _ _ _ _ _ _ (conf_ok l) IA OK RM W) as (j & ls' & act' & IA' & J & EC & LEO & D).
    set (new := number (get_leo (k_leader s)) (firstn j b)) in *.
    assert (inv (g_conf g l) r (L ++ new)) as I' by (exists s0, ls', act'; split; [rewrite EC, EL; reflexivity|assumption]).
    pose proof (inv_leo63 true _ _ _ I) as B1. pose proof (inv_leo63 true _ _ _ I') as B2. pose proof (total_nonneg (firstn j b)) as TN.
    assert (chain (get_leo (k_leader s)) new (get_leo r)) as CN.
    { destruct (inv_stores _ _ _ I') as ((_ & C') & _). apply chain_split in C' as (m & C1 & C2).
      destruct (inv_stores _ _ _ I) as ((_ & C) & _). rewrite (log_start_ok _ _ _ _ _ IA'), <- (log_start_ok _ _ _ _ _ IA) in C1. rewrite (chain_fun _ _ _ _ C1 C) in C2. assumption. }
    exists (H ++ new). apply leader_changes; [assumption| | |lia| | |].
    + exists dr, (L ++ new). split; [assumption|]. split; [rewrite app_assoc; apply Forall2_app; [assumption|apply sims_refl]|].
      rewrite (log_start_ok _ _ _ _ _ IA'), <- (log_start_ok _ _ _ _ _ IA). assumption.
    + eapply (number_good true); [exact CN|apply (in_s_pos true); assumption|apply (in_s_pos true); assumption|apply Forall_firstn; assumption|apply Forall_firstn; assumption].
    + destruct res; destruct D as (_ & ->); [lia|]. destruct upd; lia.
    + destruct res; destruct D as (_ & ->); [lia|]. destruct upd; lia.
    + intros i TI NI. pose proof (HWF i TI NI) as K. destruct res; destruct D as (_ & ->); [exact K|]. destruct upd eqn:U; [|exact K].
      exfalso. apply NI. eapply isr_one; [exact IL| |apply TI]. unfold upd in U. lia.
  - (* send *)
    exists H. apply new_message; [assumption|]. cbn [fmsg y_leader]. split; [assumption|].
    unfold follower_updates in UP. destruct (view i (k_views s)) as [q|] eqn:V; [|discriminate].
    destruct (is_valid q && negb (is_same q seen)); [|discriminate]. destruct SB as (SB1 & SB2).
    inversion UP; subst m. clear UP. cbn [s_hw s_records]. split.
    { intros j TJ. pose proof (fi_hw _ _ FI l j TL TJ) as K. rewrite (nl l lost s) in K. cbn [y_cluster] in K. lia. }
    pose proof HL as (dr & L & I & S & CD).
    assert (part_of H []) as EMPTY.
    { exists H, [], [], 0. split; [rewrite app_nil_r; reflexivity|]. cbn. split; [reflexivity|]. split; lia. }
    destruct (i_leo q <? i_leo seen) eqn:LT; [|exact EMPTY].
    destruct (Z.lt_ge_cases (i_leo q) (get_log_start (k_leader s))) as [LO|LO].
    { rewrite (read_below _ _ _ _ _ _ I LO). exact EMPTY. }
    destruct (read_sized _ _ _ (i_leo q) (g_max_bytes g) (conf_ok l) I ltac:(lia)) as (pre & sel & rest & E & SZ & RD & _).
    cbn [led_by p_max_bytes]. rewrite RD. cbn [sl_bytes].
    rewrite E in S. apply Forall2_app_inv_r in S as (h1 & h2 & S1 & S2 & ->). apply Forall2_app_inv_r in S2 as (h3 & h4 & S3 & S4 & ->). apply Forall2_app_inv_r in S4 as (h5 & h6 & S5 & S6 & ->).
    assert (encs sel = encs h5) as EE by (unfold encs; apply sims_encs; assumption).
    exists (h1 ++ h3), h5, h6, (g_max_bytes g). split; [rewrite <- app_assoc; reflexivity|]. rewrite <- EE. split; [reflexivity|].
    destruct GO as (_ & _ & C). destruct (C l) as (CO & SM). destruct CO as (CO & _). split; lia.
  - (* deliver *)
    destruct AC as (_ & AC). cbn [y_lost] in AC. exists H. destruct (fi_net _ _ FI _ NET) as (FO & MH & MP). cbn [y_leader y_lost y_cluster] in FO, MH.
    destruct (fi_fol _ _ FI i FO AC) as (FX & SH). cbn [y_cluster] in FX, SH.
    destruct (deliver_has H _ (g_conf g i) now (k_follower s i) m (conf_ok i) (fi_good _ _ FI) (has_chain _ _ _ HL) FX SH MP RM) as (A & B & C & D).
    assert (takes_part g (mkSystem l lost s) i) as TI by (split; [apply FO|exact AC]).
    apply fol_changed; try assumption.
    + pose proof (fi_hw _ _ FI i i TI TI) as K. rewrite (node_follower (mkSystem l lost s)) in K by apply FO. cbn [y_cluster led_by p_fconf] in *. lia.
    + intros j TJ. pose proof (fi_hw _ _ FI i j TI TJ) as K. rewrite (node_follower (mkSystem l lost s) i) in K by apply FO. cbn [y_cluster led_by p_fconf] in *. specialize (MH j TJ). lia.
  - (* report *)
    destruct AC as (_ & AC). cbn [y_lost] in AC. exists H. apply new_message; [assumption|]. cbn [fmsg y_leader y_lost y_cluster as_offset i_leo i_hw]. split; [assumption|]. split; [assumption|].
    assert (takes_part g (mkSystem l lost s) i) as TI by (split; [apply FO|exact AC]).
    pose proof (fi_hw _ _ FI i i TI TI) as K. rewrite (node_follower (mkSystem l lost s)) in K by apply FO. cbn [y_cluster] in K. lia.
  - (* receive *)
    destruct (fi_net _ _ FI _ NET) as (FO & NLi & QL). cbn [y_leader y_lost y_cluster] in FO, NLi, QL.
    unfold update_states_from_followers in UP.
    assert (exists H', finv H' (mkSystem l lost (mkCluster (k_leader s) (k_views s) (k_follower s) (k_net s))) /\ carries H H' (mkSystem l lost s) (mkSystem l lost (mkCluster (k_leader s) (k_views s) (k_follower s) (k_net s)))) as NOTHING.
    { exists H. split; [destruct s; exact FI|]. apply carries_same. intros j TJ. split; [exact TJ|apply Z.le_refl]. }
    destruct (newer q seen) eqn:NW; [inversion UP; subst; exact NOTHING|].
    destruct (view i (k_views s)) as [w|] eqn:V; [|inversion UP; subst; exact NOTHING].
    destruct (update_info w q) as [w' ch] eqn:UI. destruct ch; [|inversion UP; subst; exact NOTHING].
    pose proof (update_info_le _ _ _ _ UI) as (W1 & W2 & W3 & W4).
    pose proof (fi_views _ _ FI _ (view_in _ _ _ V)) as VL. cbn [fst snd y_lost y_cluster] in VL. destruct (in_dec Z.eq_dec i lost) as [|_] in VL; [contradiction|].
    set (v' := set_view i w' (k_views s)) in *.
    assert (map fst v' = follower_ids l (g_replicas g)) as VK by (unfold v'; rewrite set_view_keys; apply (fi_keys _ _ FI)).
    assert (forall x, In x v' -> if in_dec Z.eq_dec (fst x) lost then snd x = default_info else i_hw (snd x) <= i_leo (snd x) <= get_leo (k_follower s (fst x))) as VW.
    { intros x IX. apply set_view_in in IX as [->|IX]; [cbn [fst snd]; destruct (in_dec _ _ _); [contradiction|lia]|apply (fi_views _ _ FI); assumption]. }
    assert (finv H (mkSystem l lost (mkCluster (k_leader s) v' (k_follower s) (k_net s)))) as FV.
    { constructor; cbn [y_leader y_lost y_cluster k_leader k_views k_follower k_net]; try apply FI; assumption. }
    assert (forall j, takes_part g (mkSystem l lost (mkCluster (k_leader s) v' (k_follower s) (k_net s))) j -> takes_part g (mkSystem l lost s) j /\ get_leo (node (mkSystem l lost s) j) <= get_leo (node (mkSystem l lost (mkCluster (k_leader s) v' (k_follower s) (k_net s))) j)) as CV.
    { intros j TJ. split; [exact TJ|apply Z.le_refl]. }
    assert (exists H', finv H' (mkSystem l lost (mkCluster (k_leader s) v' (k_follower s) (k_net s))) /\ carries H H' (mkSystem l lost s) (mkSystem l lost (mkCluster (k_leader s) v' (k_follower s) (k_net s)))) as KEEP.
    { exists H. split; [exact FV|apply carries_same; exact CV]. }
    destruct (is_committed seen); [inversion UP; subst; exact KEEP|].
    cbn [led_by p_replicas] in UP. pose proof (isr_value _ (led_ok l IL) true) as IS. cbn [led_by p_replicas p_leader] in IS. set (isr := in_sync_replica (g_replicas g)) in *.
    assert (zlen v' = zlen (follower_ids l (g_replicas g))) as LV by (rewrite <- VK; unfold zlen; rewrite map_length; reflexivity).
    assert (isr < 65536) as I16 by (unfold isr, in_sync_replica, wrap_u; change (2 ^ 16) with 65536; apply Z.mod_pos_bound; lia).
    pose proof (compute_hw_spec (i_hw seen) isr (map (fun x => i_leo (snd x)) v') ltac:(pose proof (zlen_nonneg v'); lia)) as CS. cbv zeta in CS.
    assert (v' <> []) as NV.
    { intros E. pose proof (set_view_same i w' _ _ V) as X. fold v' in X. rewrite E in X. discriminate. }
    assert (Nat.max 1 (Nat.min (Z.to_nat (isr - 1)) (length (map (fun x => i_leo (snd x)) v'))) = length (map (fun x : Z * info => i_leo (snd x)) v')) as NN.
    { rewrite map_length. assert (Z.to_nat (isr - 1) = length v') by (unfold zlen in *; lia). destruct v'; [congruence|]. cbn [length] in *. lia. }
    rewrite NN in CS.
    destruct (compute_hw (i_hw seen) isr (map (fun x => i_leo (snd x)) v')) as [hw|]; [|inversion UP; subst; exact KEEP].
    inversion UP; subst r v. clear UP.
    destruct CS as (GT & (R1 & R2)). destruct SB as (SB1 & SB2).
    assert (forall x, In x v' -> hw <= i_leo (snd x)) as HWV.
    { intros x IX. eapply (reached_full (map (fun x => i_leo (snd x)) v')); [pose proof (reached_le (map (fun x : Z * info => i_leo (snd x)) v') hw); lia|]. apply (in_map (fun x => i_leo (snd x))) in IX. exact IX. }
    assert (forall j, follower (led_by g l) j -> hw <= get_leo (k_follower s j) /\ ~ In j lost) as HWJ.
    { intros j FJ. assert (In j (map fst v')) as IV by (rewrite VK; apply follower_ids_in; exact FJ).
      apply in_map_iff in IV as (x & <- & IX). specialize (HWV x IX). specialize (VW x IX). destruct (in_dec _ _ _) as [Y|Y]; [rewrite VW in HWV; cbn in HWV; lia|]. split; [lia|exact Y]. }
    pose proof (leader_changes H [] l lost (mkCluster (k_leader s) v' (k_follower s) (k_net s)) (update_hw (k_leader s) hw) FV) as X.
    rewrite app_nil_r in X. cbn [k_leader k_views k_follower k_net] in X. exists H.
    change (get_leo (update_hw (k_leader s) hw)) with (get_leo (k_leader s)) in X. change (get_hw (update_hw (k_leader s) hw)) with hw in X.
    destruct X as (X1 & X2).
    + exact HL.
    + constructor.
    + lia.
    + lia.
    + destruct (HWJ i FO) as (A & B). assert (takes_part g (mkSystem l lost s) i) as TI by (split; [apply FO|exact B]).
      pose proof (node_le _ _ _ FI TI) as K. rewrite (node_follower (mkSystem l lost s)) in K by apply FO. cbn [y_cluster] in K. lia.
    + intros j TJ NJ. apply HWJ. split; [apply TJ|exact NJ].
    + split; [exact X1|]. apply carries_same. intros j TJ. split; [exact TJ|]. unfold node. cbn [y_leader y_cluster k_leader k_follower]. destruct (j =? l); [apply Z.le_refl|apply Z.le_refl].
  - (* retention at the leader *)
    exists H. destruct (clean_has _ _ _ _ _ (conf_ok l) HL CA OKa EX) as (A & B & C & D).
    pose proof (leader_changes H [] l lost s r FI) as X. rewrite app_nil_r in X.
    apply X; [exact A|constructor|lia|lia|lia|]. intros j TJ NJ. rewrite C. auto.
  - (* retention at a follower *)
    destruct AC as (FO & AC). cbn [y_leader y_lost] in FO, AC.
    exists H. destruct (fi_fol _ _ FI i FO AC) as ((n & X) & SH). cbn [y_cluster] in X, SH.
    destruct (clean_has _ _ _ _ _ (conf_ok i) X CA OKa EX) as (A & B & C & D).
    assert (takes_part g (mkSystem l lost s) i) as TI by (split; [apply FO|exact AC]).
    apply fol_changed; try assumption; [exists n; exact A|congruence|lia| |].
    + pose proof (fi_hw _ _ FI i i TI TI) as K. rewrite (node_follower (mkSystem l lost s)) in K by apply FO. cbn [y_cluster] in *. lia.
    + intros j TJ. pose proof (fi_hw _ _ FI i j TI TJ) as K. rewrite (node_follower (mkSystem l lost s) i) in K by apply FO. cbn [y_cluster] in *. lia.
  - (* restart of a follower *)
    destruct AC as (FO & AC). cbn [y_leader y_lost] in FO, AC.
    exists H. destruct (fi_fol _ _ FI i FO AC) as ((n & X) & SH). cbn [y_cluster] in X, SH.
    destruct (restart_has _ _ _ _ _ _ (conf_ok i) X EX) as (A & B & C & D).
    assert (takes_part g (mkSystem l lost s) i) as TI by (split; [apply FO|exact AC]).
    apply fol_changed; try assumption; [exists n; exact A|lia| |].
    + pose proof (fi_hw _ _ FI i i TI TI) as K. rewrite (node_follower (mkSystem l lost s)) in K by apply FO. cbn [y_cluster] in *. lia.
    + intros j TJ. pose proof (fi_hw _ _ FI i j TI TJ) as K. rewrite (node_follower (mkSystem l lost s) i) in K by apply FO. cbn [y_cluster] in *. lia.
Qed.

Lemma initial_keys l : map fst (initial_views l (g_replicas g)) = follower_ids l (g_replicas g).
Proof. unfold initial_views. rewrite map_map. cbn [fst]. apply map_id. Qed.
Lemma initial_default l x : In x (initial_views l (g_replicas g)) -> snd x = default_info /\ In (fst x) (g_replicas g) /\ fst x <> l.
Proof.
  intros IX. pose proof (in_map fst _ _ IX) as K. rewrite initial_keys in K. apply follower_ids_in in K. split; [|exact K].
  unfold initial_views in IX. apply in_map_iff in IX as (i & <- & _). reflexivity.
Qed.

Lemma reopen_ok H l lost s now k r : finv H (mkSystem l lost s) ->
  0 <= ckpt_value (m_base (r_active (k_leader s))) k <= get_hw (k_leader s) -> exec (g_conf g l) (k_leader s) (Restart now k) = Done r ->
  finv H (mkSystem l lost (reopen_leader g s l r)) /\ carries H H (mkSystem l lost s) (mkSystem l lost (reopen_leader g s l r)).
Proof.
  intros FI CK EX. pose proof (fi_part _ _ FI) as TL. pose proof (fi_leader _ _ FI) as HL. cbn [y_leader y_cluster] in TL, HL.
  destruct (restart_has _ _ _ _ _ _ (conf_ok l) HL EX) as (A & B & C & D).
  set (y := mkSystem l lost s) in *. set (y' := mkSystem l lost (reopen_leader g s l r)).
  assert (forall i, i <> l -> node y' i = node y i) as NO by (intros i N; rewrite !node_follower by exact N; reflexivity).
  assert (node y' l = r) as NR by apply (node_leader y').
  assert (node y l = k_leader s) as NL by apply nl.
  pose proof (fi_hw _ _ FI l l TL TL) as HWL. rewrite NL in HWL.
  assert (forall i, get_leo (node y' i) = get_leo (node y i)) as LE.
  { intros i. destruct (Z.eq_dec i l) as [->|N]; [congruence|rewrite NO by exact N; reflexivity]. }
  split; [|apply carries_same; intros i TI; split; [exact TI|rewrite LE; apply Z.le_refl]].
  constructor; unfold y'; cbn [y_leader y_lost y_cluster reopen_leader k_leader k_views k_follower k_net].
  - exact TL.
  - exact A.
  - exact (fi_good _ _ FI).
  - exact (fi_fol _ _ FI).
  - apply initial_keys.
  - intros x IX. destruct (initial_default _ _ IX) as (E & IR & NE). rewrite E. destruct (in_dec _ _ _) as [Y|Y]; [reflexivity|]. cbn.
    assert (takes_part g y (fst x)) as TX by (split; assumption). pose proof (fi_hw _ _ FI _ _ TL TX) as K. rewrite (node_follower y (fst x)) in K by exact NE. cbn [y y_cluster] in K. lia.
  - intros a b TA TB. change (mkSystem l lost _) with y'. rewrite LE. pose proof (fi_hw _ _ FI a b TA TB) as K.
    destruct (Z.eq_dec a l) as [->|N]; [rewrite NR; rewrite NL in K; lia|rewrite NO by exact N; exact K].
  - intros m IM. pose proof (fi_net _ _ FI m IM) as K. destruct m as [j m|j q]; cbn [fmsg y_leader y_lost y_cluster y k_follower reopen_leader] in *.
    + destruct K as (K1 & K2 & K3). split; [assumption|]. split; [|assumption]. intros b TB. change (mkSystem l lost _) with y'. rewrite LE. exact (K2 b TB).
    + exact K.
Qed.

Lemma elect_ok H l lost s j now k gone old : finv H (mkSystem l lost s) ->
  follower (led_by g l) j -> ~ In j lost -> ~ In j gone ->
  0 <= ckpt_value (m_base (r_active (k_leader s))) k <= get_hw (k_leader s) -> exec (g_conf g l) (k_leader s) (Restart now k) = Done old ->
  (forall i, takes_part g (mkSystem l lost s) i -> ~ In i gone -> get_leo (node (mkSystem l lost s) i) <= get_leo (node (mkSystem l lost s) j)) ->
  let y' := mkSystem j (gone ++ lost) (change_leader g s l j old []) in
  exists H', finv H' y' /\ carries H H' (mkSystem l lost s) y'.
Proof.
  intros FI FJ NJ NG CK EX LONG y'. pose proof (fi_part _ _ FI) as TL. pose proof (fi_leader _ _ FI) as HL. cbn [y_leader y_cluster] in TL, HL.
  destruct (restart_has _ _ _ _ _ _ (conf_ok l) HL EX) as (A & B & C & D).
  set (y := mkSystem l lost s) in *.
  assert (takes_part g y j) as TJ by (split; [apply FJ|exact NJ]).
  assert (forall i, takes_part g y' i -> takes_part g y i /\ ~ In i gone) as TP.
  { intros i (X1 & X2). unfold y' in X2. cbn [y_lost] in X2. rewrite in_app_iff in X2. split; [split; [exact X1|intros Z1; apply X2; right; exact Z1]|intros Z1; apply X2; left; exact Z1]. }
  assert (node y l = k_leader s) as NL by apply nl.
  pose proof (fi_hw _ _ FI l l TL TL) as HWL. rewrite NL in HWL.
  assert (node y' j = node y j) as NODEJ by (unfold y'; rewrite nl; rewrite node_follower by apply FJ; reflexivity).
  assert (l <> j) as LJ by (intros E; apply FJ; symmetry; exact E).
  assert (node y' l = old) as NODEL by (rewrite node_follower by exact LJ; unfold y'; cbn [y_cluster change_leader k_follower]; apply set_follower_same).
  assert (forall i, i <> l -> node y' i = node y i) as NO.
  { intros i N. destruct (Z.eq_dec i j) as [->|NI]; [exact NODEJ|]. rewrite (node_follower y') by exact NI. rewrite (node_follower y) by exact N. unfold y'. cbn [y_cluster change_leader k_follower]. apply set_follower_other. exact N. }
  assert (forall i, get_leo (node y' i) = get_leo (node y i)) as LE.
  { intros i. destruct (Z.eq_dec i l) as [->|N]; [congruence|rewrite NO by exact N; reflexivity]. }
  assert (forall i, takes_part g y' i -> 0 <= get_hw (node y' i) <= get_hw (node y i)) as HWN.
  { intros i TI. destruct (TP i TI) as (T1 & _). pose proof (fi_hw _ _ FI i i T1 T1) as K. destruct (Z.eq_dec i l) as [->|N]; [rewrite NODEL, NL; lia|rewrite NO by exact N; lia]. }
  pose proof (node_has _ _ _ FI TJ) as (n & HJ). pose proof (has_chain _ _ _ HJ) as CJ.
  assert (forall i, takes_part g y' i -> fol (firstn n H) (g_conf g i) (node y' i)) as FN.
  { intros i TI. destruct (TP i TI) as (T1 & N1). assert (fol H (g_conf g i) (node y' i)) as (m & HI).
    - destruct (Z.eq_dec i l) as [->|N]; [rewrite NODEL; exists (length H); rewrite firstn_all; exact A|rewrite NO by exact N; apply (node_has _ _ _ FI T1)].
    - destruct (chain_shorter (firstn m H) 0 (firstn n H) (get_leo (node y' i)) (get_leo (node y j)) (skipn m H) (skipn n H)) as (Q & EQ).
      + rewrite !firstn_skipn. reflexivity.
      + apply (has_chain _ _ _ HI).
      + exact CJ.
      + rewrite LE. apply LONG; assumption.
      + exists (length (firstn m H)). rewrite EQ. rewrite firstn_app, firstn_all, Nat.sub_diag. cbn [firstn]. rewrite app_nil_r. exact HI. }
  assert (forall i, follower (led_by g j) i -> ~ In i (gone ++ lost) -> takes_part g y' i) as FT by (intros i FO NI; split; [apply FO|exact NI]).
  exists (firstn n H). split.
  - constructor; unfold y'; cbn [y_leader y_lost y_cluster change_leader k_leader k_views k_follower k_net].
    + split; [apply FJ|]. cbn [y_lost]. rewrite in_app_iff. intros [X|X]; contradiction.
    + rewrite (node_follower y) in HJ by apply FJ. exact HJ.
    + apply Forall_firstn. exact (fi_good _ _ FI).
    + intros i FO NI. pose proof (FN i (FT i FO NI)) as K. rewrite (node_follower y') in K by apply FO. split; [exact K|].
      destruct (Z.eq_dec i l) as [->|N]; [rewrite set_follower_same; exact D|rewrite set_follower_other by exact N].
      destruct (TP i (FT i FO NI)) as (T1 & _). apply (fi_fol _ _ FI); [apply (part_follower y); assumption|apply T1].
    + apply initial_keys.
    + intros x IX. destruct (initial_default _ _ IX) as (E & IR & NE). rewrite E. destruct (in_dec _ _ _) as [Y|Y]; [reflexivity|]. cbn [default_info i_hw i_leo].
      assert (takes_part g y' (fst x)) as TX by (split; assumption). destruct (TP _ TX) as (T1 & _). pose proof (fi_hw _ _ FI _ _ TL T1) as K.
      rewrite <- LE in K. rewrite (node_follower y' (fst x)) in K by exact NE. unfold y' in K. cbn [y_cluster change_leader k_follower] in K. lia.
    + intros a b TA TB. fold y' in TA, TB |- *. change (mkSystem j (gone ++ lost) (change_leader g s l j old [])) with y'. rewrite LE. specialize (HWN a TA). pose proof (fi_hw _ _ FI a b (proj1 (TP a TA)) (proj1 (TP b TB))) as K. lia.
    + intros m [].
  - split; [intros i TI; split; [apply TP; exact TI|rewrite LE; apply Z.le_refl]|].
    intros P Q e EH CP AL. assert (takes_part g y' j) as TJ' by (split; [apply FJ|unfold y'; cbn [y_lost]; rewrite in_app_iff; intros [X|X]; contradiction]).
    destruct (chain_shorter P 0 (firstn n H) e (get_leo (node y j)) Q (skipn n H)) as (R & ER).
    + rewrite firstn_skipn. symmetry. exact EH.
    + exact CP.
    + exact CJ.
    + apply AL. exact TJ'.
    + exists P, R. split; [exact ER|apply sims_refl].
Qed.

Lemma fstep_ok H y e y' : finv H y -> complete g y e -> fstep g y e y' -> exists H', finv H' y' /\ carries H H' y y'.
Proof.
  intros FI CO ST. destruct y as [l lost s]. destruct ST as [e s' AC ST|now k r CK EX|j now k gone late old FJ NJ NG IN CK EX]; cbn [y_leader y_lost y_cluster] in *.
  - eapply act_ok; eassumption.
  - exists H. eapply reopen_ok; eassumption.
  - destruct CO as (-> & LONG). eapply elect_ok; eassumption.
Qed.
Lemma begin_ok l : In l (g_replicas g) -> finv [] (begin g l).
Proof.
  intros IL. constructor; unfold begin; cbn [y_leader y_lost y_cluster start k_leader k_views k_follower k_net].
  - split; [exact IL|intros []].
  - exists [], []. split; [apply fresh_inv; apply conf_ok|]. split; [constructor|reflexivity].
  - constructor.
  - intros i FO _. split; [|reflexivity]. exists 0%nat, [], []. split; [apply fresh_inv; apply conf_ok|]. split; [constructor|reflexivity].
  - apply initial_keys.
  - intros x IX. destruct (initial_default _ _ IX) as (E & _ & _). rewrite E. cbn. lia.
  - intros i j _ _. unfold node. cbn [y_leader y_cluster k_leader k_follower]. destruct (i =? l), (j =? l); cbn; lia.
  - intros m [].
Qed.
Lemma fruns_ok y y' H : finv H y -> fruns g (complete g) y y' -> exists H', finv H' y'.
Proof.
  intros FI R. induction R as [y|y y1 y2 e R IH CO ST]; [eauto|]. destruct (IH FI) as (H1 & F1). destruct (fstep_ok _ _ _ _ F1 CO ST) as (H2 & F2 & _). eauto.
Qed.

(** * Claims *)
Lemma one_log l y : In l (g_replicas g) -> fruns g (complete g) (begin g l) y ->
  exists H, holds (node y (y_leader y)) H
    /\ (forall i, takes_part g y i -> exists n, holds (node y i) (firstn n H))
    /\ forall i j, takes_part g y i -> takes_part g y j -> get_hw (node y i) <= get_leo (node y j).
Proof.
  intros IL R. destruct (fruns_ok _ _ _ (begin_ok l IL) R) as (H & FI). exists H.
  split; [rewrite node_leader; eapply has_holds; apply (fi_leader _ _ FI)|]. split.
  - intros i TI. destruct (node_has _ _ _ FI TI) as (n & X). exists n. eapply has_holds; exact X.
  - intros i j TI TJ. apply (fi_hw _ _ FI); assumption.
Qed.

Lemma smallest (f : Z -> Z) (l : list Z) (P : Z -> Prop) (dec : forall i, {P i} + {~ P i}) i0 : In i0 l -> P i0 -> exists i, In i l /\ P i /\ forall j, In j l -> P j -> f i <= f j.
Proof.
  intros I0 P0. assert (forall l', (exists i, In i l' /\ P i /\ forall j, In j l' -> P j -> f i <= f j) \/ (forall i, In i l' -> ~ P i)) as X.
  { induction l' as [|x l' IH]; [right; intros i []|]. destruct (dec x) as [PX|PX].
    - left. destruct IH as [(i & I & PI & M)|N].
      + destruct (Z.le_ge_cases (f x) (f i)) as [L|L].
        * exists x. split; [left; reflexivity|]. split; [assumption|]. intros j [<-|J] PJ; [lia|]. specialize (M j J PJ). lia.
        * exists i. split; [right; assumption|]. split; [assumption|]. intros j [<-|J] PJ; [lia|]. auto.
      + exists x. split; [left; reflexivity|]. split; [assumption|]. intros j [<-|J] PJ; [lia|]. exfalso. eapply N; eassumption.
    - destruct IH as [(i & I & PI & M)|N].
      + left. exists i. split; [right; assumption|]. split; [assumption|]. intros j [<-|J] PJ; [contradiction|]. auto.
      + right. intros i [<-|I]; [assumption|]. apply N. assumption. }
  destruct (X l) as [Y|N]; [exact Y|]. exfalso. eapply N; eassumption.
Qed.

(** Everything that all replicas have at some time, all replicas have ever after. *)
Lemma begins A B H c r e : H = A ++ B -> chain 0 A e -> fol H c r -> e <= get_leo r -> exists t, holds r (A ++ t).
Proof.
  intros -> CA (n & X) LE. destruct (chain_shorter A 0 (firstn n (A ++ B)) e (get_leo r) B (skipn n (A ++ B))) as (D & ED).
  - rewrite firstn_skipn. reflexivity.
  - exact CA.
  - apply (has_chain _ _ _ X).
  - exact LE.
  - exists D. rewrite <- ED. eapply has_holds; exact X.
Qed.
Lemma committed_kept l y y' : In l (g_replicas g) -> fruns g (complete g) (begin g l) y -> fruns g (complete g) y y' ->
  exists P e, chain 0 P e /\ (forall i, takes_part g y i -> get_hw (node y i) <= e)
    /\ (forall i, takes_part g y i -> exists t, holds (node y i) (P ++ t))
    /\ forall i, takes_part g y' i -> exists t, holds (node y' i) (P ++ t).
Proof.
  intros IL R0 R. destruct (fruns_ok _ _ _ (begin_ok l IL) R0) as (H & FI).
  destruct (smallest (fun i => get_leo (node y i)) (g_replicas g) (takes_part g y)
     ltac:(intros i; unfold takes_part; destruct (in_dec Z.eq_dec i (g_replicas g)), (in_dec Z.eq_dec i (y_lost y)); [right|left|right|right]; intuition) (y_leader y)
     (proj1 (fi_part _ _ FI)) (fi_part _ _ FI)) as (k & IK & TK & MIN).
  destruct (node_has _ _ _ FI TK) as (n & HK). pose proof (has_chain _ _ _ HK) as CK.
  exists (firstn n H), (get_leo (node y k)). split; [exact CK|]. split; [intros i TI; apply (fi_hw _ _ FI); assumption|].
  split.
  { intros i TI. eapply begins; [symmetry; apply firstn_skipn|exact CK|apply (node_has _ _ _ FI TI)|apply MIN; [apply TI|exact TI]]. }
  assert (exists H' A B, finv H' y' /\ H' = A ++ B /\ sims (firstn n H) A /\ forall i, takes_part g y' i -> get_leo (node y k) <= get_leo (node y' i)) as (H' & A & B & FI' & E & S & AL).
  { clear R0 IL IK. revert TK HK CK MIN. induction R as [y|y y1 y2 ev R IH CO ST]; intros TK HK CK MIN.
    - exists H, (firstn n H), (skipn n H). split; [assumption|]. split; [symmetry; apply firstn_skipn|]. split; [apply sims_refl|]. intros i TI. apply MIN; [apply TI|exact TI].
    - destruct (IH FI TK HK CK MIN) as (H1 & A & B & F1 & E & S & AL). destruct (fstep_ok _ _ _ _ F1 CO ST) as (H2 & F2 & K1 & K2).
      destruct (K2 A B (get_leo (node y k)) E) as (A' & B' & E' & S').
      + eapply sims_chain; [exact S|exact CK].
      + intros i TI. apply AL. apply K1. exact TI.
      + exists H2, A', B'. split; [exact F2|]. split; [exact E'|]. split; [eapply sims_trans; eassumption|]. intros i TI. destruct (K1 i TI) as (T1 & L1). specialize (AL i T1). lia. }
  intros i TI. destruct (begins A B H' (g_conf g i) (node y' i) (get_leo (node y k)) E) as (t & HT).
  - eapply sims_chain; [exact S|exact CK].
  - apply (node_has _ _ _ FI' TI).
  - apply AL. exact TI.
  - exists t. eapply sims_holds; [|exact HT]. apply Forall2_app; [exact S|apply sims_refl].
Qed.

(** Without one of its replicas a leader commits nothing more. *)
Lemma lost_blocks l y i e y' : In l (g_replicas g) -> fruns g (complete g) (begin g l) y -> In i (g_replicas g) -> In i (y_lost y) ->
  fstep g y (Act e) y' -> get_hw (node y' (y_leader y')) = get_hw (node y (y_leader y)).
Proof.
  intros IL R IR LO ST. destruct (fruns_ok _ _ _ (begin_ok l IL) R) as (H & FI). rewrite !node_leader.
  destruct y as [ld lost s]. inversion ST as [e0 s' AC ST' E1 E2| |]; subst. cbn [y_leader y_lost y_cluster] in *. clear ST.
  pose proof (fi_part _ _ FI) as (ILd & NLL). cbn [y_leader y_lost] in ILd, NLL.
  destruct ST' as [now b OK NS RM|a seen m FO SB UP|a now m NET RM|a FO|a q seen r v NET SB UP|a r CA OKa EX|a o r CA OKa EX|a now k r CK EX]; cbn [k_leader]; try reflexivity.
  - unfold leader_write. destruct (total_records b =? 0); [reflexivity|]. cbn [led_by p_replicas p_conf] in *.
    destruct (in_sync_replica (g_replicas g) =? 1) eqn:U.
    + exfalso. apply NLL. rewrite <- (isr_one ld i ILd ltac:(lia) IR). exact LO.
    + destruct (write_recordset (g_conf g ld) now (k_leader s) b false) as [r res] eqn:W. cbn [fst].
      pose proof (fi_leader _ _ FI) as (dr & L & (s0 & ls & act & EL & IA) & _). cbn [y_leader y_cluster] in IA.
      destruct (write_recordset_at _ _ _ _ _ _ _ _ _ _ (conf_ok ld) IA OK RM W) as (j & ls' & act' & _ & _ & _ & _ & D).
      destruct res; apply D.
  - destruct (fi_net _ _ FI _ NET) as (FO & NLi & QL). cbn [y_leader y_lost y_cluster] in FO, NLi, QL.
    unfold update_states_from_followers in UP.
    destruct (newer q seen); [inversion UP; reflexivity|]. destruct (view a (k_views s)) as [w|] eqn:V; [|inversion UP; reflexivity].
    destruct (update_info w q) as [w' ch]. destruct ch; [|inversion UP; reflexivity]. destruct (is_committed seen); [inversion UP; reflexivity|].
    set (v' := set_view a w' (k_views s)) in *.
    assert (map fst v' = follower_ids ld (g_replicas g)) as VK by (unfold v'; rewrite set_view_keys; apply (fi_keys _ _ FI)).
    cbn [led_by p_replicas] in UP. pose proof (isr_value _ (led_ok ld ILd) true) as IS. cbn [led_by p_replicas p_leader] in IS. set (isr := in_sync_replica (g_replicas g)) in *.
    assert (zlen v' = zlen (follower_ids ld (g_replicas g))) as LV by (rewrite <- VK; unfold zlen; rewrite map_length; reflexivity).
    assert (isr < 65536) as I16 by (unfold isr, in_sync_replica, wrap_u; change (2 ^ 16) with 65536; apply Z.mod_pos_bound; lia).
    pose proof (compute_hw_spec (i_hw seen) isr (map (fun x => i_leo (snd x)) v') ltac:(pose proof (zlen_nonneg v'); lia)) as CS. cbv zeta in CS.
    assert (In i (map fst v')) as IV by (rewrite VK; apply follower_ids_in; split; [exact IR|intros ->; contradiction]).
    apply in_map_iff in IV as (x & EX & IX).
    assert (Nat.max 1 (Nat.min (Z.to_nat (isr - 1)) (length (map (fun x => i_leo (snd x)) v'))) = length (map (fun x : Z * info => i_leo (snd x)) v')) as NN.
    { rewrite map_length. assert (Z.to_nat (isr - 1) = length v') by (unfold zlen in *; lia). destruct v'; [destruct IX|]. cbn [length] in *. lia. }
    rewrite NN in CS.
    destruct (compute_hw (i_hw seen) isr (map (fun x => i_leo (snd x)) v')) as [hw|]; [|inversion UP; reflexivity].
    exfalso. destruct CS as (GT & (R1 & R2)). destruct SB as (SB1 & SB2).
    assert (hw <= i_leo (snd x)) as HX.
    { eapply (reached_full (map (fun x => i_leo (snd x)) v')); [pose proof (reached_le (map (fun x : Z * info => i_leo (snd x)) v') hw); lia|]. apply (in_map (fun x => i_leo (snd x))) in IX. exact IX. }
    apply set_view_in in IX as [-> |IX]; [cbn [fst] in EX; subst; contradiction|].
    pose proof (fi_views _ _ FI x IX) as K. cbn [y_lost] in K. rewrite EX in K. destruct (in_dec _ _ _); [|contradiction]. rewrite K in HX. cbn in HX. lia.
  - destruct CA as [->|(nw & ->)]; cbn [exec] in EX; inversion EX; subst r.
    + unfold enforce_size. cbv zeta. destruct (0 <? _); reflexivity.
    + unfold enforce_ttl. destruct (filter _ _); reflexivity.
Qed.
End Failover.
