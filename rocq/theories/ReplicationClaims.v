From Verif Require Import ReplicationModel ReplicationSpec StorageSpec RecordSpec RecordProofs StorageProofs ReplicaProofs StorageClaims ReplicationProofs ClusterProofs WireProofs ListFacts.

Lemma rel_shortened full l l' : Forall2 (rel full) l l' -> Forall2 shortened l l'.
Proof.
  induction 1 as [|b b' l l' R F IH]; constructor; [|assumption]. destruct R as (rs & -> & (k & ->) & _). split; [reflexivity|]. split; [reflexivity|]. split; [reflexivity|]. exists k. reflexivity.
Qed.
Lemma view_some i v : In i (map fst v) -> exists q, view i v = Some q.
Proof.
  induction v as [|[j r] v IH]; [intros []|]. cbn [map fst view]. intros [->|I]; [rewrite Z.eqb_refl; eauto|]. destruct (i =? j); eauto.
Qed.

Section Claims.
Variable p : params.
Hypothesis PO : params_ok p.

Lemma committed_at full H s i : cinv p full H s -> follower p i -> get_hw (k_leader s) <= get_leo (k_follower s i).
Proof.
  intros CI FI. assert (In i (map fst (k_views s))) as IV by (rewrite (ci_keys _ _ _ _ CI); apply follower_ids_in; exact FI).
  destruct (view_some _ _ IV) as (q & V). apply view_in in V. pose proof (ci_views _ _ _ _ CI _ V) as VL. cbn [fst snd] in VL.
  destruct (ci_hw _ _ _ _ CI) as [Z0|HV]; [|specialize (HV _ V); cbn [snd] in HV; lia].
  destruct (ci_foll _ _ _ _ CI i FI) as (_ & A & B). lia.
Qed.
Lemma leader_holds full H s : cinv p full H s -> holds (k_leader s) H.
Proof.
  intros CI. split; [eapply leader_chain; exact CI|]. destruct (ci_leader _ _ _ _ CI) as (dl & L & E & I & CD).
  exists dl, L. split; [assumption|]. split; [|assumption]. destruct (inv_stores _ _ _ I) as (S & _). exact S.
Qed.

Lemma committed_replicated s : c_seg_max (p_conf p) <= p_max_bytes p -> reachable p s ->
  exists H, holds (k_leader s) H /\ 0 <= get_hw (k_leader s) <= get_leo (k_leader s)
    /\ forall i, follower p i ->
         (exists n, holds (k_follower s i) (firstn n H))
         /\ get_hw (k_leader s) <= get_leo (k_follower s i) /\ get_hw (k_follower s i) <= get_hw (k_leader s).
Proof.
  intros SM R. destruct (runs_cinv p PO true (fun _ => SM) _ _ R) as (H & CI). exists H.
  split; [eapply leader_holds; exact CI|]. split; [exact (ci_hw0 _ _ _ _ CI)|]. intros i FI.
  split; [|split; [eapply committed_at; eassumption|apply (ci_foll _ _ _ _ CI i FI)]].
  destruct (ci_foll _ _ _ _ CI i FI) as ((n & dr & L & I & F & CD & _) & _). exists n.
  destruct (inv_stores _ _ _ I) as ((LB & CL) & _).
  apply Forall2_app_inv_r in F as (a & b & F1 & F2 & E). rewrite E.
  split; [|exists a, b; split; [reflexivity|]; split; [split|]].
  - apply (rel_chain _ _ _ (Forall2_app F1 F2)). eapply chain_app; eassumption.
  - rewrite LB. apply (rel_encs true _ _ eq_refl F2).
  - apply (rel_chain _ _ _ F2). assumption.
  - apply (rel_chain _ _ _ F1). assumption.
Qed.
Lemma any_slice s : reachable p s ->
  exists H, holds (k_leader s) H /\ 0 <= get_hw (k_leader s) <= get_leo (k_leader s)
    /\ forall i, follower p i ->
         (exists n G, Forall2 shortened (firstn n H) G /\ holds (k_follower s i) G)
         /\ get_hw (k_leader s) <= get_leo (k_follower s i) /\ get_hw (k_follower s i) <= get_hw (k_leader s).
Proof.
  intros R. destruct (runs_cinv p PO false ltac:(discriminate) _ _ R) as (H & CI). exists H.
  split; [eapply leader_holds; exact CI|]. split; [exact (ci_hw0 _ _ _ _ CI)|]. intros i FI.
  split; [|split; [eapply committed_at; eassumption|apply (ci_foll _ _ _ _ CI i FI)]].
  destruct (ci_foll _ _ _ _ CI i FI) as ((n & dr & L & I & F & CD & _) & _). exists n, (dr ++ L).
  split; [eapply rel_shortened; exact F|]. destruct (inv_stores _ _ _ I) as ((LB & CL) & _).
  split; [eapply chain_app; eassumption|]. exists dr, L. split; [reflexivity|]. split; [split; assumption|assumption].
Qed.

Lemma not_backwards s s' : reachable p s -> runs p no_restart s s' -> not_behind p s s'.
Proof.
  intros R RS. destruct (runs_cinv p PO false ltac:(discriminate) _ _ R) as (H & CI).
  enough (not_behind p s s' /\ exists H', cinv p false H' s') as X by apply X.
  induction RS as [s|s s1 s2 e RS IH PE ST].
  - split; [|eauto]. split; [split; lia|]. split; [intros; split; lia|]. intros i q V. exists q. split; [assumption|lia].
  - destruct (IH R CI) as ((A1 & A2 & A3) & H' & CI'). destruct (cstep p PO false ltac:(discriminate) _ _ _ _ CI' ST) as (new & CI2 & B1 & B2 & B3 & B4).
    split; [|eauto]. destruct A1 as (A0 & A1). split; [split; lia|]. split.
    + intros i FI. destruct (A2 i FI) as (C1 & C2). destruct (B3 i FI) as (D1 & D2). specialize (D2 PE). split; lia.
    + intros i q V. destruct (A3 i q V) as (q' & V' & C1 & C2). destruct (B4 i q' V') as (q2 & V2 & D1 & D2). exists q2. split; [assumption|lia].
Qed.
Lemma ends_kept s s' : reachable p s -> runs p all_events s s' ->
  get_leo (k_leader s) <= get_leo (k_leader s') /\ get_hw (k_leader s) <= get_hw (k_leader s')
  /\ forall i, follower p i -> get_leo (k_follower s i) <= get_leo (k_follower s' i).
Proof.
  intros R RS. destruct (runs_cinv p PO false ltac:(discriminate) _ _ R) as (H & CI).
  match goal with |- ?G => enough (G /\ exists H', cinv p false H' s') as X by apply X end.
  induction RS as [s|s s1 s2 e RS IH PE ST].
  - split; [|eauto]. split; [lia|]. split; [lia|]. intros; lia.
  - destruct (IH R CI) as ((A0 & A1 & A2) & H' & CI'). destruct (cstep p PO false ltac:(discriminate) _ _ _ _ CI' ST) as (new & CI2 & B1 & B2 & B3 & B4).
    split; [|eauto]. split; [lia|]. split; [lia|]. intros i FI. specialize (A2 i FI). destruct (B3 i FI) as (D1 & _). lia.
Qed.
End Claims.

(** * Stale and duplicate messages *)
Lemma follow_hw_log r hw : log_bytes (follow_hw r hw) = log_bytes r /\ get_leo (follow_hw r hw) = get_leo r.
Proof. destruct (follow_hw_ok r hw) as [->|[-> _]]; split; reflexivity. Qed.
Lemma stale_ignored c now r m : rset_base_offset (receive (s_records m)) <> get_leo r ->
  log_bytes (deliver c now r m) = log_bytes r /\ get_leo (deliver c now r m) = get_leo r.
Proof.
  intros NE. unfold deliver, update_from_leader. apply Z.eqb_neq in NE. rewrite NE. destruct (0 <? _); apply follow_hw_log.
Qed.

(** When a delivery does not touch the log. *)
Definition idle (c : config) (r : replica) (m : sync) : bool :=
  let l := receive (s_records m) in
  negb (0 <? total_records l) || negb (rset_base_offset l =? get_leo r) || match check_limits c l with Some _ => true | None => false end.
Lemma idle_deliver c now r m : idle c r m = true ->
  log_bytes (deliver c now r m) = log_bytes r /\ get_leo (deliver c now r m) = get_leo r.
Proof.
  unfold idle, deliver, update_from_leader, write_recordset. cbv zeta. destruct (0 <? _); [|intros _; apply follow_hw_log].
  destruct (_ =? _); [|intros _; apply follow_hw_log]. destruct (check_limits _ _); [intros _; split; reflexivity|discriminate].
Qed.
Lemma busy_deliver c now r m L : config_ok c -> inv c r L -> r_short r = false ->
  let l := receive (s_records m) in
  Forall good l -> Forall (fun b => 0 < records_len b) l -> room r l -> idle c r m = false ->
  get_leo (deliver c now r m) = get_leo r + total l /\ 0 < total l /\ rset_base_offset l = get_leo r.
Proof.
  intros CO I SH l G P RM ID.
  assert (Forall raw_batch_ok l) as OK by (eapply Forall_impl; [|exact G]; intros b (X & _); exact X).
  assert (Forall (fun b => 0 < records_len b /\ has_schema (b_hdr b) = false) l) as Gl.
  { clear - G P. induction P; inversion G as [|? ? (_ & X)]; subst; constructor; auto. }
  unfold idle in ID. fold l in ID. apply orb_false_iff in ID as (ID & CK). apply orb_false_iff in ID as (T & B).
  destruct (check_limits c l) eqn:CL; [discriminate|]. clear CK. rewrite negb_false_iff in T, B.
  unfold deliver, update_from_leader. fold l. rewrite T, B.
  rewrite total_records_eq in T. apply Z.ltb_lt in T. apply Z.eqb_eq in B.
  unfold write_recordset. rewrite CL. pose proof I as (s0 & ls & act & EL & IA).
  destruct (write_batches c now r l) as [r1 [e0|]] eqn:WB;
    destruct (write_batches_at _ _ _ _ _ _ _ _ _ CO IA OK CL RM WB) as (n & ls2 & act2 & I2 & MB & HW & N & F & LEO2 & POS & D2).
  - exfalso. destruct D2 as (_ & [(_ & S & _)|(_ & b & NB & D2)]); [congruence|].
    apply nth_error_In in NB. rewrite Forall_forall in Gl. destruct (Gl b NB) as (G1 & G2).
    destruct D2 as [(_ & D2 & _)|(_ & D2 & _)]; [lia|congruence].
  - destruct D2 as (-> & _). rewrite firstn_all in LEO2. split; [|split; assumption]. destruct (follow_hw_log r1 (s_hw m)) as (_ & ->). assumption.
Qed.

Section Dup.
Variable p : params.
Hypothesis PO : params_ok p.

Lemma message_good full H s i m : cinv p full H s -> In (ToFollower i m) (k_net s) ->
  follower p i /\ let l := receive (s_records m) in Forall good l /\ Forall (fun b => 0 < records_len b) l.
Proof.
  intros CI NET. destruct (ci_net _ _ _ _ CI _ NET) as (FI & SHW & pre & sel & rest & n & EH & ES & SZ & N0 & FU). split; [assumption|]. cbv zeta.
  pose proof (ci_good _ _ _ _ CI) as G. rewrite EH in G. apply Forall_app in G as (_ & G). apply Forall_app in G as (G & _).
  assert (Forall raw_batch_ok sel) as OKs by (eapply Forall_impl; [|exact G]; intros b (X & _); exact X).
  assert (Forall (fun b => has_schema (b_hdr b) = false) sel) as NSs by (eapply Forall_impl; [|exact G]; intros b (_ & X); exact X).
  destruct (receive_rel full sel n OKs SZ N0 FU) as (k & RL). rewrite ES.
  pose proof (leader_chain _ _ _ _ CI) as CL. rewrite EH in CL. apply chain_split in CL as (x & CP & CL). apply chain_split in CL as (y & CS & CR).
  split.
  - pose proof (rel_oks full _ _ (Forall_firstn _ k _ OKs) RL) as A. pose proof (rel_schemas full _ _ (Forall_firstn _ k _ NSs) RL) as B.
    clear - A B. induction A; inversion B; subst; constructor; [split; assumption|auto].
  - destruct (chain_firstn k _ _ _ CS) as (z & CZ & _). apply (rel_chain full _ _ RL) in CZ. eapply chain_pos; exact CZ.
Qed.

Lemma delivered_effect s i now m s' : reachable p s -> ReplicationSpec.step p s (Deliver i now m) s' ->
  idle (p_fconf p i) (k_follower s i) m = true \/ rset_base_offset (receive (s_records m)) < get_leo (k_follower s' i).
Proof.
  intros R ST. destruct (idle (p_fconf p i) (k_follower s i) m) eqn:ID; [left; reflexivity|right].
  inversion ST as [| |? ? ? NET RM| | | | |]; subst. cbn [k_follower]. rewrite set_follower_same.
  destruct (runs_cinv p PO false ltac:(discriminate) _ _ R) as (H & CI). destruct (message_good false _ _ _ _ CI NET) as (FI & G & P).
  destruct (ci_foll _ _ _ _ CI i FI) as ((n & dr & L & I & F & CD & SH) & _).
  destruct PO as (_ & _ & _ & _ & CF & _).
  destruct (busy_deliver (p_fconf p i) now _ m L (CF i) I SH G P RM ID) as (A & B & C). rewrite A, C. lia.
Qed.
Lemma step_follower s i now m s' : ReplicationSpec.step p s (Deliver i now m) s' -> k_follower s' i = deliver (p_fconf p i) now (k_follower s i) m /\ In (ToFollower i m) (k_net s).
Proof. intros ST. inversion ST; subst. cbn [k_follower]. rewrite set_follower_same. auto. Qed.
Lemma reachable_step s e s' : reachable p s -> ReplicationSpec.step p s e s' -> reachable p s'.
Proof. intros R ST. eapply runs_more; [exact R|exact I|exact ST]. Qed.
Lemma reachable_runs P s s' : reachable p s -> runs p P s s' -> reachable p s'.
Proof. intros R RS. induction RS; [assumption|]. eapply reachable_step; [apply IHRS; assumption|eassumption]. Qed.

Lemma twice s i now m s1 now' s2 : reachable p s -> ReplicationSpec.step p s (Deliver i now m) s1 -> ReplicationSpec.step p s1 (Deliver i now' m) s2 ->
  log_bytes (k_follower s2 i) = log_bytes (k_follower s1 i) /\ get_leo (k_follower s2 i) = get_leo (k_follower s1 i).
Proof.
  intros R S1 S2. destruct (step_follower _ _ _ _ _ S1) as (E1 & _). destruct (step_follower _ _ _ _ _ S2) as (E2 & _). rewrite E2.
  destruct (delivered_effect _ _ _ _ _ R S1) as [A|A]; [|apply stale_ignored; lia].
  apply idle_deliver. destruct (idle_deliver _ now _ _ A) as (_ & LE). rewrite <- E1 in LE. unfold idle in *. rewrite LE. exact A.
Qed.
Lemma once s i now m s1 s2 now' s3 : reachable p s -> ReplicationSpec.step p s (Deliver i now m) s1 ->
  log_bytes (k_follower s1 i) <> log_bytes (k_follower s i) ->
  runs p all_events s1 s2 -> ReplicationSpec.step p s2 (Deliver i now' m) s3 ->
  log_bytes (k_follower s3 i) = log_bytes (k_follower s2 i) /\ get_leo (k_follower s3 i) = get_leo (k_follower s2 i).
Proof.
  intros R S1 NE RS S2. destruct (step_follower _ _ _ _ _ S1) as (E1 & NET). destruct (step_follower _ _ _ _ _ S2) as (E2 & _). rewrite E2.
  destruct (delivered_effect _ _ _ _ _ R S1) as [A|A].
  - exfalso. apply NE. rewrite E1. apply idle_deliver. exact A.
  - apply stale_ignored. destruct (ends_kept p PO _ _ (reachable_step _ _ _ R S1) RS) as (_ & _ & LE).
    destruct (runs_cinv p PO false ltac:(discriminate) _ _ R) as (H & CI). destruct (message_good false _ _ _ _ CI NET) as (FI & _).
    specialize (LE i FI). lia.
Qed.
Lemma follower_writes s i now m s' : reachable p s -> ReplicationSpec.step p s (Deliver i now m) s' ->
  let r := k_follower s i in let l := receive (s_records m) in
  match write_recordset (p_fconf p i) now r l false with
  | (r1, Some _) => r1 = r
  | (_, None) => True
  end.
Proof.
  intros R ST r l. inversion ST as [| |? ? ? NET RM| | | | |]; subst.
  destruct (runs_cinv p PO false ltac:(discriminate) _ _ R) as (H & CI). destruct (message_good false _ _ _ _ CI NET) as (FI & G & P).
  destruct (ci_foll _ _ _ _ CI i FI) as ((n & dr & L & I & F & CD & SH) & _).
  destruct PO as (_ & _ & _ & _ & CF & _).
  pose proof (all_or_nothing (p_fconf p i) r now l L false (CF i) I ltac:(eapply Forall_impl; [|exact G]; intros b (Z & _); exact Z) RM SH) as AN.
  destruct (write_recordset _ _ _ _ _) as [r1 [e|]]; [|auto]. apply AN.
  clear - G P. fold l in G, P. clearbody l. induction P; inversion G as [|? ? (_ & Z)]; subst; constructor; auto.
Qed.
End Dup.

(** * Replication can always be completed *)
Lemma receive_full sel n : Forall raw_batch_ok sel -> zlen (encs sel) < 2 ^ 31 -> zlen (encs sel) <= n ->
  receive (ztake n (encs sel)) = map (received raw_codec) sel.
Proof.
  intros OK SZ N. rewrite ztake_all by lia. unfold receive. set (k := zlen (encs sel)) in *.
  destruct (raw_set_cut sel k [] OK ltac:(unfold k; change (encs sel) with (flat_map (batch_enc raw_codec) sel); pose proof (zlen_nonneg (flat_map (batch_enc raw_codec) sel)); lia) ltac:(lia)) as (m & tail & o & D & A1 & A2 & A3 & A4 & A5).
  rewrite app_nil_r in D. rewrite ztake_all in D by (change (flat_map (batch_enc raw_codec) sel) with (encs sel); unfold k; lia).
  change (encs sel) with (flat_map (batch_enc raw_codec) sel). rewrite D.
  assert (m = length sel) as ->.
  { destruct A3 as [A3|A3]; [|assumption]. exfalso.
    assert (zlen (flat_map (batch_enc raw_codec) (firstn (S m) sel)) <= k).
    { unfold k. change (encs sel) with (flat_map (batch_enc raw_codec) sel). rewrite <- (firstn_skipn (S m) sel) at 2. rewrite flat_map_app, zlen_app.
      pose proof (zlen_nonneg (flat_map (batch_enc raw_codec) (skipn (S m) sel))). lia. }
    lia. }
  rewrite firstn_all in *. destruct A4 as (-> & _); [reflexivity|]. apply app_nil_r.
Qed.
Lemma limits_ok c l n : Forall good l -> zlen (encs l) <= n -> n <= c_seg_max c -> n <= c_req_max c -> check_limits c l = None.
Proof.
  intros G. revert n. induction l as [|b l IH]; intros n N A B; [reflexivity|]. inversion G as [|? ? (OK & NS)]; subst.
  rewrite encs_cons, zlen_app in N. pose proof (raw_batch_size b OK) as S. rewrite NS in S. fold (renc b) in S. pose proof (zlen_nonneg (encs l)). pose proof (zlen_nonneg (renc b)).
  cbn [check_limits]. cbv zeta. destruct (c_seg_max c <? _) eqn:C1; [lia|]. destruct (c_req_max c <? _) eqn:C2; [lia|]. eapply (IH H n); lia.
Qed.
Lemma prefix_cases {A} (a b a' b' : list A) : a ++ a' = b ++ b' -> (exists t, b = a ++ t) \/ (exists x t, a = b ++ x :: t).
Proof.
  revert b. induction a as [|x a IH]; intros b E.
  - left. exists b. reflexivity.
  - destruct b as [|y b]; [right; exists x, a; reflexivity|]. cbn [app] in E. inversion E as [[E1 E2]]. subst y.
    destruct (IH b E2) as [(t & ->)|(z & t & ->)]; [left; exists t|right; exists z, t]; reflexivity.
Qed.

Section Progress.
Variable p : params.
Hypothesis PO : params_ok p.
Hypothesis SM : c_seg_max (p_conf p) <= p_max_bytes p.
Local Notation accepts := (accepts p).

Lemma runs_trans P s1 s2 s3 : runs p P s1 s2 -> runs p P s2 s3 -> runs p P s1 s3.
Proof. intros A B. induction B as [|? ? ? ? B IH PE ST]; [assumption|]. eapply runs_more; [apply IH; assumption|exact PE|exact ST]. Qed.
Lemma run1 (P : event -> Prop) s e s' : P e -> ReplicationSpec.step p s e s' -> runs p P s s'.
Proof. intros A B. eapply runs_more; [apply runs_none|exact A|exact B]. Qed.

Lemma runs_keep_cinv P H s s' : cinv p true H s -> runs p P s s' -> exists H', cinv p true H' s'.
Proof.
  intros CI RS. induction RS as [s|s s1 s2 e RS IH PE ST]; [eauto|]. destruct (IH CI) as (H' & CI'). destruct (cstep p PO true (fun _ => SM) _ _ _ _ CI' ST) as (new & CI2 & _). eauto.
Qed.

Lemma tell H s i : cinv p true H s -> follower p i -> exists s' h q, runs p exchange s s'
  /\ k_follower s' = k_follower s /\ k_leader s' = update_hw (k_leader s) h
  /\ view i (k_views s') = Some q /\ i_leo q = get_leo (k_follower s i) /\ is_valid q = true.
Proof.
  intros CI FI. set (q0 := as_offset (k_follower s i)). set (seen := as_offset (k_leader s)).
  set (s1 := mkCluster (k_leader s) (k_views s) (k_follower s) (ToLeader i q0 :: k_net s)).
  assert (ReplicationSpec.step p s (Report i) s1) as ST1 by (apply step_report; assumption).
  pose proof (ci_hw0 _ _ _ _ CI) as HW0. destruct (ci_foll _ _ _ _ CI i FI) as (FO & HF1 & HF2).
  pose proof (foll_leo _ _ _ _ _ CI FI) as FL.
  destruct (update_states_from_followers (in_sync_replica (p_replicas p)) seen (k_leader s1) (k_views s1) i q0) as [r v] eqn:UP.
  assert (ReplicationSpec.step p s1 (Receive i q0 seen) (mkCluster r v (k_follower s1) (k_net s1))) as ST2.
  { apply step_receive; [left; reflexivity|split; cbn; lia|exact UP]. }
  assert (exists h q, r = update_hw (k_leader s) h /\ view i v = Some q /\ i_leo q = get_leo (k_follower s i) /\ is_valid q = true) as (h & q & -> & V & L & VA).
  { assert (In i (map fst (k_views s))) as IV by (rewrite (ci_keys _ _ _ _ CI); apply follower_ids_in; exact FI).
    destruct (view_some _ _ IV) as (w & V). pose proof (ci_views _ _ _ _ CI _ (view_in _ _ _ V)) as VL. cbn [fst snd] in VL.
    unfold update_states_from_followers, s1 in UP. cbn [k_leader k_views] in UP. unfold newer in UP.
    replace (i_leo seen <? i_leo q0) with false in UP by (symmetry; apply Z.ltb_ge; cbn; lia).
    replace (i_hw seen <? i_hw q0) with false in UP by (symmetry; apply Z.ltb_ge; cbn; lia). cbn [orb] in UP. rewrite V in UP.
    assert (k_leader s = update_hw (k_leader s) (get_hw (k_leader s))) as ID by (destruct (k_leader s); reflexivity).
    destruct (update_info w q0) as [w' ch] eqn:UI. unfold update_info in UI. cbn [q0 as_offset i_hw i_leo] in UI. inversion UI as [[EW EC]].
    assert (i_leo w' = get_leo (k_follower s i) /\ is_valid w' = true) as (LW & VW).
    { subst w'. unfold is_valid. cbn [i_hw i_leo].
      destruct (i_hw w <? get_hw (k_follower s i)) eqn:C1; destruct (i_leo w <? get_leo (k_follower s i)) eqn:C2;
        (split; [lia|]; apply andb_true_iff; split; [apply negb_true_iff, orb_false_iff; split; lia|lia]). }
    destruct ch.
    - assert (view i (set_view i w' (k_views s)) = Some w') as V' by (eapply set_view_same; exact V). subst w'.
      match type of UP with (if ?x then _ else _) = _ => destruct x end; [inversion UP; subst; exists (get_hw (k_leader s)); eexists; eauto|].
      destruct (compute_hw _ _ _) as [h|]; inversion UP; subst; [exists h|exists (get_hw (k_leader s))]; eexists; eauto.
    - inversion UP; subst. apply orb_false_iff in EC as (EC1 & EC2). rewrite EC1, EC2 in *. exists (get_hw (k_leader s)), w. split; [assumption|]. split; [assumption|]. destruct w; auto. }
  exists (mkCluster (update_hw (k_leader s) h) v (k_follower s1) (k_net s1)), h, q. split; [|auto].
  eapply runs_trans; [apply (run1 _ _ _ _ (I : exchange (Report i)) ST1)|apply (run1 _ _ _ _ (I : exchange (Receive i q0 seen)) ST2)].
Qed.

Lemma feed H s i q : cinv p true H s -> follower p i -> accepts i -> view i (k_views s) = Some q -> i_leo q = get_leo (k_follower s i) -> is_valid q = true ->
  get_log_start (k_leader s) <= get_leo (k_follower s i) < get_leo (k_leader s) -> get_leo (k_leader s) < 2 ^ 31 ->
  exists s', runs p exchange s s' /\ k_leader s' = k_leader s /\ get_leo (k_follower s i) < get_leo (k_follower s' i)
    /\ (forall j, j <> i -> k_follower s' j = k_follower s j).
Proof.
  intros CI FI (AC1 & AC2) V LQ VA (LO & HI) RM. set (seen := as_offset (k_leader s)). pose proof (ci_hw0 _ _ _ _ CI) as HW0.
  destruct (ci_leader _ _ _ _ CI) as (dl & L & EH & IL & CD). destruct PO as (_ & _ & _ & CL & CF & _).
  destruct (read_sized _ _ _ (get_leo (k_follower s i)) (p_max_bytes p) CL IL ltac:(lia)) as (pre & sel & rest & EL & SZ & RD & b & t & ES & CT).
  set (m := mkSync (get_hw (k_leader s)) (get_leo (k_leader s)) (ztake (p_max_bytes p) (encs sel))).
  assert (follower_updates seen (k_leader s) (k_views s) i (p_max_bytes p) = Some m) as FU.
  { unfold follower_updates. rewrite V, VA. unfold is_same. replace (i_leo q =? i_leo seen) with false by (symmetry; apply Z.eqb_neq; cbn; lia).
    rewrite andb_false_r. cbn [negb andb]. replace (i_leo q <? i_leo seen) with true by (symmetry; apply Z.ltb_lt; cbn; lia). rewrite LQ, RD. reflexivity. }
  set (s1 := mkCluster (k_leader s) (k_views s) (k_follower s) (ToFollower i m :: k_net s)).
  assert (ReplicationSpec.step p s (Send i seen) s1) as ST1 by (apply step_send; [assumption|split; cbn; lia|exact FU]).
  pose proof (ci_good _ _ _ _ CI) as G. assert (Forall good sel) as GS by (rewrite EH, EL in G; apply Forall_app in G as (_ & G); apply Forall_app in G as (_ & G); apply Forall_app in G; apply G).
  assert (Forall raw_batch_ok sel) as OKs by (eapply Forall_impl; [|exact GS]; intros x (X & _); exact X).
  assert (receive (s_records m) = map (received raw_codec) sel) as RC.
  { apply receive_full; [assumption| |lia]. destruct CL as (CL & _). lia. }
  assert (Forall2 (rel true) sel (map (received raw_codec) sel)) as RL by apply rel_received.
  pose proof (leader_chain _ _ _ _ CI) as CH. rewrite EH, EL in CH.
  assert (chain 0 (dl ++ pre) (get_leo (k_follower s i)) /\ exists y, chain (get_leo (k_follower s i)) sel y /\ y <= get_leo (k_leader s)) as (CP & y & CS & YL).
  { rewrite app_assoc in CH. apply chain_split in CH as (x & CP & CH). apply chain_split in CH as (y & CS & CR).
    destruct (ci_foll _ _ _ _ CI i FI) as (FO & _). destruct (foll_chain _ _ _ _ FO) as (n & CN).
    pose proof CS as CS'. rewrite ES in CS'. cbn [chain] in CS'. destruct CS' as (B1 & B2 & B3). unfold contains in CT. rewrite B1 in CT.
    assert (x = get_leo (k_follower s i)) as ->.
    { destruct (prefix_cases (firstn n H) (dl ++ pre) (skipn n H) (sel ++ rest)) as [(z & EZ)|(z & u & EZ)].
      - rewrite firstn_skipn, EH, EL, <- app_assoc. reflexivity.
      - rewrite EZ in CP. apply chain_split in CP as (x' & C1 & C2). rewrite (chain_fun _ _ _ _ C1 CN) in C2. apply chain_le in C2. lia.
      - exfalso. assert (dl ++ pre ++ sel ++ rest = (dl ++ pre) ++ (z :: u) ++ skipn n H) as E2.
        { rewrite (app_assoc (dl ++ pre)), <- EZ, firstn_skipn, EH, EL. reflexivity. }
        rewrite app_assoc in E2. apply app_inv_head in E2. rewrite ES in E2. cbn [app] in E2. inversion E2; subst z.
        rewrite EZ in CN. apply chain_split in CN as (x' & C1 & C2). rewrite (chain_fun _ _ _ _ C1 CP) in C2. cbn [chain] in C2. destruct C2 as (_ & _ & C2). apply chain_le in C2. lia. }
    split; [assumption|]. exists y. split; [assumption|]. apply chain_le in CR. assumption. }
  assert (chain (get_leo (k_follower s i)) (map (received raw_codec) sel) y) as CSr by (apply (rel_chain true _ _ RL); assumption).
  assert (total (map (received raw_codec) sel) = y - get_leo (k_follower s i)) as TO by (apply chain_total in CSr; lia).
  destruct (ci_foll _ _ _ _ CI i FI) as ((n & dr & Lf & IF & F & CDf & SH) & _).
  assert (room (k_follower s i) (receive (s_records m))) as RM1.
  { rewrite RC. unfold room. rewrite TO. pose proof IF as (s0 & ls & act & _ & SG & _ & S0). apply segs_le in SG. change (2 ^ 63) with 9223372036854775808. change (2 ^ 31) with 2147483648 in *. lia. }
  set (s2 := mkCluster (k_leader s1) (k_views s1) (set_follower (k_follower s1) i (deliver (p_fconf p i) 0 (k_follower s1 i) m)) (k_net s1)).
  assert (ReplicationSpec.step p s1 (Deliver i 0 m) s2) as ST2 by (apply step_deliver; [left; reflexivity|exact RM1]).
  exists s2. split; [eapply runs_trans; [apply (run1 _ _ _ _ (I : exchange (Send i seen)) ST1)|apply (run1 _ _ _ _ (I : exchange (Deliver i 0 m)) ST2)]|].
  split; [reflexivity|]. split; [|intros j NE; cbn [s2 k_follower]; rewrite set_follower_other by assumption; reflexivity].
  cbn [s2 k_follower]. rewrite set_follower_same. cbn [s1 k_follower].
  assert (Forall good (map (received raw_codec) sel)) as GR.
  { pose proof (rel_oks true _ _ OKs RL) as X1. assert (Forall (fun b => has_schema (b_hdr b) = false) sel) as NS by (eapply Forall_impl; [|exact GS]; intros x (_ & X); exact X).
    pose proof (rel_schemas true _ _ NS RL) as X2. clear - X1 X2. induction X1; inversion X2; subst; constructor; [split; assumption|auto]. }
  assert (get_leo (k_follower s i) < y) as YG by (rewrite ES in CS; cbn [chain] in CS; destruct CS as (_ & B2 & B3); apply chain_le in B3; lia).
  destruct (busy_deliver (p_fconf p i) 0 (k_follower s i) m Lf (CF i) IF SH) as (A & B & C).
  - rewrite RC. assumption.
  - rewrite RC. eapply chain_pos. exact CSr.
  - exact RM1.
  - unfold idle. rewrite RC. rewrite total_records_eq.
    replace (0 <? total (map (received raw_codec) sel)) with true by (symmetry; apply Z.ltb_lt; lia).
    replace (rset_base_offset (map (received raw_codec) sel) =? get_leo (k_follower s i)) with true.
    2: { symmetry. apply Z.eqb_eq. rewrite ES in *. cbn [map rset_base_offset chain] in *. lia. }
    rewrite (limits_ok (p_fconf p i) _ (c_seg_max (p_conf p)) GR); [reflexivity| | |]; [|lia|lia].
    rewrite (rel_encs true _ _ eq_refl RL). assumption.
  - rewrite A. lia.
Qed.

(** What stays while messages are exchanged. *)
Definition kept (s s' : cluster) : Prop :=
  get_leo (k_leader s') = get_leo (k_leader s) /\ get_log_start (k_leader s') = get_log_start (k_leader s) /\ log_bytes (k_leader s') = log_bytes (k_leader s).
Lemma kept_refl s : kept s s.
Proof. repeat split. Qed.
Lemma kept_trans a b c : kept a b -> kept b c -> kept a c.
Proof. intros (A1 & A2 & A3) (B1 & B2 & B3). repeat split; congruence. Qed.
Lemma kept_hw s s' h : k_leader s' = update_hw (k_leader s) h -> kept s s'.
Proof. intros E. unfold kept. rewrite E. repeat split. Qed.

Lemma catch_up i : follower p i -> accepts i -> forall n H s, cinv p true H s ->
  get_leo (k_leader s) - get_leo (k_follower s i) <= Z.of_nat n ->
  get_log_start (k_leader s) <= get_leo (k_follower s i) -> get_leo (k_leader s) < 2 ^ 31 ->
  exists s' q, runs p exchange s s' /\ kept s s' /\ view i (k_views s') = Some q /\ i_leo q = get_leo (k_leader s)
    /\ (forall j, j <> i -> k_follower s' j = k_follower s j).
Proof.
  intros FI AC n. induction n as [|n IH]; intros H s CI D LS RM.
  - pose proof (foll_leo _ _ _ _ _ CI FI) as FL. destruct (tell H s i CI FI) as (s' & h & q & RS & EF & EL & V & LQ & VA).
    exists s', q. split; [assumption|]. split; [eapply kept_hw; exact EL|]. split; [assumption|]. split; [lia|]. intros j _. rewrite EF. reflexivity.
  - pose proof (foll_leo _ _ _ _ _ CI FI) as FL. destruct (tell H s i CI FI) as (s1 & h & q & RS & EF & EL & V & LQ & VA).
    pose proof (kept_hw _ _ _ EL) as K1. destruct K1 as (K1a & K1b & K1c).
    destruct (Z.eq_dec (get_leo (k_follower s i)) (get_leo (k_leader s))) as [EQ|NE].
    + exists s1, q. split; [assumption|]. split; [repeat split; assumption|]. split; [assumption|]. split; [lia|]. intros j _. rewrite EF. reflexivity.
    + destruct (runs_keep_cinv _ _ _ _ CI RS) as (H1 & CI1).
      destruct (feed H1 s1 i q CI1 FI AC V ltac:(rewrite EF; assumption) VA ltac:(rewrite EF; lia) ltac:(lia)) as (s2 & RS2 & EL2 & LT & OTH).
      destruct (runs_keep_cinv _ _ _ _ CI1 RS2) as (H2 & CI2). rewrite EF in LT.
      destruct (IH H2 s2 CI2) as (s3 & q3 & RS3 & K3 & V3 & LQ3 & OTH3).
      * rewrite EL2. lia.
      * rewrite EL2. lia.
      * rewrite EL2. lia.
      * exists s3, q3. split; [eapply runs_trans; [exact RS|eapply runs_trans; [exact RS2|exact RS3]]|].
        split; [eapply kept_trans; [|exact K3]; unfold kept; rewrite EL2; repeat split; assumption|].
        split; [assumption|]. split; [rewrite LQ3, EL2; assumption|]. intros j NJ. rewrite OTH3, OTH, EF by assumption. reflexivity.
Qed.

Lemma exchange_views H s s' : cinv p true H s -> runs p exchange s s' -> forall i q, view i (k_views s) = Some q -> exists q', view i (k_views s') = Some q' /\ i_leo q <= i_leo q'.
Proof.
  intros CI RS. induction RS as [s|s s1 s2 e RS IH PE ST]; intros i q V; [exists q; split; [assumption|lia]|].
  destruct (runs_keep_cinv _ _ _ _ CI RS) as (H1 & CI1). destruct (cstep p PO true (fun _ => SM) _ _ _ _ CI1 ST) as (new & _ & _ & _ & _ & B4).
  destruct (IH CI i q V) as (q1 & V1 & L1). destruct (B4 i q1 V1) as (q2 & V2 & _ & L2). exists q2. split; [assumption|lia].
Qed.

Lemma all_catch_up ids : forall H s, cinv p true H s -> (forall i, In i ids -> follower p i /\ accepts i) ->
  (forall i, follower p i -> get_log_start (k_leader s) <= get_leo (k_follower s i)) -> get_leo (k_leader s) < 2 ^ 31 ->
  exists s', runs p exchange s s' /\ kept s s' /\ forall i, In i ids -> exists q, view i (k_views s') = Some q /\ get_leo (k_leader s) <= i_leo q.
Proof.
  induction ids as [|i ids IH]; intros H s CI FA LS RM.
  - exists s. split; [apply runs_none|]. split; [apply kept_refl|]. intros i [].
  - destruct (FA i (or_introl eq_refl)) as (FI & AC). pose proof (foll_leo _ _ _ _ _ CI FI) as FL.
    destruct (catch_up i FI AC (Z.to_nat (get_leo (k_leader s) - get_leo (k_follower s i))) H s CI ltac:(lia) (LS i FI) RM) as (s1 & q & RS & (K1 & K2 & K3) & V & LQ & OTH).
    destruct (runs_keep_cinv _ _ _ _ CI RS) as (H1 & CI1).
    destruct (IH H1 s1 CI1) as (s2 & RS2 & K & VS).
    + intros j J. apply FA. right. assumption.
    + intros j FJ. rewrite K2. destruct (Z.eq_dec j i) as [->|NE]; [|rewrite OTH by assumption; apply LS; assumption].
      pose proof (ci_views _ _ _ _ CI1 _ (view_in _ _ _ V)) as VL. cbn [fst snd] in VL. pose proof (LS i FI). lia.
    + lia.
    + exists s2. split; [eapply runs_trans; eassumption|]. split; [eapply kept_trans; [|exact K]; repeat split; assumption|].
      intros j [<-|J].
      * destruct (exchange_views _ _ _ CI1 RS2 _ _ V) as (q2 & V2 & L2). exists q2. split; [assumption|lia].
      * destruct (VS j J) as (q2 & V2 & L2). exists q2. split; [assumption|lia].
Qed.

Lemma completes_from H s i0 : cinv p true H s -> follower p i0 -> (forall i, follower p i -> accepts i) ->
  (forall i, follower p i -> get_log_start (k_leader s) <= get_leo (k_follower s i)) -> get_leo (k_leader s) < 2 ^ 31 ->
  exists s', runs p exchange s s' /\ log_bytes (k_leader s') = log_bytes (k_leader s)
    /\ get_leo (k_leader s') = get_leo (k_leader s) /\ get_hw (k_leader s') = get_leo (k_leader s)
    /\ forall i, follower p i -> get_leo (k_follower s' i) = get_leo (k_leader s).
Proof.
  intros CI F0 AC LS RM.
  destruct (all_catch_up (follower_ids (p_leader p) (p_replicas p)) H s CI) as (s' & RS & (K1 & K2 & K3) & VS); [|assumption|assumption|].
  - intros i I. apply follower_ids_in in I. split; [exact I|apply AC; exact I].
  - exists s'. split; [assumption|]. split; [assumption|]. split; [assumption|]. destruct (runs_keep_cinv _ _ _ _ CI RS) as (H1 & CI1).
    assert (forall x, In x (k_views s') -> i_leo (snd x) = get_leo (k_leader s) /\ follower p (fst x) /\ i_leo (snd x) <= get_leo (k_follower s' (fst x))) as VX.
    { intros x IX. pose proof (view_follower _ _ _ _ _ CI1 IX) as FX. pose proof (ci_views _ _ _ _ CI1 _ IX) as VL.
      pose proof (foll_leo _ _ _ _ _ CI1 FX) as FL.
      assert (In (fst x) (follower_ids (p_leader p) (p_replicas p))) as IF by (apply follower_ids_in; exact FX).
      destruct (VS (fst x) IF) as (q & V & LQ). rewrite (view_unique _ _ _ _ (keys_nodup p PO _ _ _ CI1) V IX eq_refl) in LQ. split; [lia|]. split; [assumption|lia]. }
    split.
    + pose proof (ci_hw0 _ _ _ _ CI1) as HW0. destruct (ci_min _ _ _ _ CI1) as [E|(x & IX & XL)].
      * exfalso. assert (In i0 (map fst (k_views s'))) as IV by (rewrite (ci_keys _ _ _ _ CI1); apply follower_ids_in; exact F0). rewrite E in IV. destruct IV.
      * destruct (VX x IX) as (A & _). lia.
    + intros i FI. assert (In i (map fst (k_views s'))) as IV by (rewrite (ci_keys _ _ _ _ CI1); apply follower_ids_in; exact FI).
      apply in_map_iff in IV as (x & <- & IX). destruct (VX x IX) as (A & _ & B). pose proof (foll_leo _ _ _ _ _ CI1 FI). lia.
Qed.

Lemma completes s i0 : reachable p s -> follower p i0 -> (forall i, follower p i -> accepts i) ->
  (forall i, follower p i -> get_log_start (k_leader s) <= get_leo (k_follower s i)) -> get_leo (k_leader s) < 2 ^ 31 ->
  exists s', runs p exchange s s' /\ log_bytes (k_leader s') = log_bytes (k_leader s)
    /\ get_leo (k_leader s') = get_leo (k_leader s) /\ get_hw (k_leader s') = get_leo (k_leader s)
    /\ forall i, follower p i -> get_leo (k_follower s' i) = get_leo (k_leader s).
Proof. intros R. destruct (runs_cinv p PO true (fun _ => SM) _ _ R) as (H & CI). apply (completes_from H). exact CI. Qed.
End Progress.

(** * Counterexamples *)
Definition snd_m (o : option sync) : sync := match o with Some m => m | None => mkSync 0 0 [] end.
Definition do_produce p now l s := mkCluster (fst (leader_write (p_conf p) now (in_sync_replica (p_replicas p)) (k_leader s) l)) (k_views s) (k_follower s) (k_net s).
Definition do_report (i : Z) s := mkCluster (k_leader s) (k_views s) (k_follower s) (ToLeader i (as_offset (k_follower s i)) :: k_net s).
Definition do_receive p i q s := let u := update_states_from_followers (in_sync_replica (p_replicas p)) (as_offset (k_leader s)) (k_leader s) (k_views s) i q in
  mkCluster (fst u) (snd u) (k_follower s) (k_net s).
Definition sent p i s := snd_m (follower_updates (as_offset (k_leader s)) (k_leader s) (k_views s) i (p_max_bytes p)).
Definition do_send p i s := mkCluster (k_leader s) (k_views s) (k_follower s) (ToFollower i (sent p i s) :: k_net s).
Definition do_deliver p i now m s := mkCluster (k_leader s) (k_views s) (set_follower (k_follower s) i (deliver (p_fconf p i) now (k_follower s i) m)) (k_net s).

(** One follower, 80 bytes per message. *)
Definition cut_p (size : Z) : params := mkParams 1 [1; 2] above_c (fun _ => above_c) size.
Lemma above_c_ok : config_ok above_c.
Proof. unfold config_ok, above_c. cbn. lia. Qed.
Lemma cut_p_ok size : 0 <= size -> params_ok (cut_p size).
Proof.
  intros S. split; [left; reflexivity|]. split; [constructor; [intros [H|[]]; lia|constructor; [intros []|constructor]]|].
  split; [vm_compute; reflexivity|]. split; [exact above_c_ok|]. split; [intros; exact above_c_ok|exact S].
Qed.
Lemma cut_p_follower size : follower (cut_p size) 2.
Proof. split; [right; left; reflexivity|cbn; lia]. Qed.
Definition round1 (size : Z) (l : list (batch bytes)) : cluster :=
  let p := cut_p size in
  let s2 := do_report 2 (do_produce p 0 l (start p)) in
  do_send p 2 (do_receive p 2 (as_offset (k_follower s2 2)) s2).
Definition round2 (size : Z) (l : list (batch bytes)) : cluster :=
  let p := cut_p size in
  let s4 := round1 size l in
  let s6 := do_report 2 (do_deliver p 2 0 (sent p 2 s4) s4) in
  do_receive p 2 (as_offset (k_follower s6 2)) s6.

Ltac one_step R := eapply runs_more; [R|exact I|].
Lemma reach_report p s i : follower p i -> reachable p s -> reachable p (do_report i s).
Proof. intros F R. eapply runs_more; [exact R|exact I|]. apply step_report. exact F. Qed.
Lemma reach_produce p s now l : Forall raw_batch_ok l -> Forall (fun b => has_schema (b_hdr b) = false) l -> room (k_leader s) l -> reachable p s -> reachable p (do_produce p now l s).
Proof. intros A B C R. eapply runs_more; [exact R|exact I|]. apply (step_produce p s now l); assumption. Qed.
Lemma reach_receive p s i q : In (ToLeader i q) (k_net s) -> 0 <= get_hw (k_leader s) -> reachable p s -> reachable p (do_receive p i q s).
Proof.
  intros A B R. eapply runs_more; [exact R|exact I|]. apply (step_receive p s i q (as_offset (k_leader s))); [exact A|split; cbn; lia|apply surjective_pairing].
Qed.
Lemma reach_send p s i : follower p i -> 0 <= get_hw (k_leader s) ->
  (exists m, follower_updates (as_offset (k_leader s)) (k_leader s) (k_views s) i (p_max_bytes p) = Some m) -> reachable p s -> reachable p (do_send p i s).
Proof.
  intros A B (m & C) R. eapply runs_more; [exact R|exact I|]. apply (step_send p s i (as_offset (k_leader s))); [exact A|split; cbn; lia|]. unfold sent. rewrite C. reflexivity.
Qed.
Lemma reach_deliver p s i now m : In (ToFollower i m) (k_net s) -> room (k_follower s i) (receive (s_records m)) -> reachable p s -> reachable p (do_deliver p i now m s).
Proof. intros A B R. eapply runs_more; [exact R|exact I|]. apply step_deliver; assumption. Qed.

Definition long : list (batch bytes) := [demo 1 60].
Lemma long_ok : Forall raw_batch_ok long.
Proof. constructor; [apply demo_ok; [closed_range|vm_compute; reflexivity]|constructor]. Qed.

Ltac le_tac := vm_compute; congruence.
Lemma round1_reachable size : size = 80 \/ size = 1000 -> reachable (cut_p size) (round1 size long).
Proof.
  intros [->| ->]; (unfold round1; cbv zeta; apply reach_send; [apply cut_p_follower|le_tac|eexists; vm_compute; reflexivity|];
    apply reach_receive; [left; reflexivity|le_tac|]; apply reach_report; [apply cut_p_follower|];
    apply reach_produce; [exact long_ok|repeat constructor|room_tac|apply runs_none]).
Qed.
Lemma round2_reachable size : size = 80 \/ size = 1000 -> reachable (cut_p size) (round2 size long).
Proof.
  intros H. pose proof (round1_reachable size H) as R. destruct H as [->| ->]; (unfold round2; cbv zeta;
    apply reach_receive; [left; reflexivity|le_tac|]; apply reach_report; [apply cut_p_follower|];
    apply reach_deliver; [left; vm_compute; reflexivity|room_tac|exact R]).
Qed.

(** A message cut in the middle of a batch: the batch is stored without the end
    of its payload, counts as replicated and is committed. *)
Lemma cut_refuted : exists p s i, params_ok p /\ reachable p s /\ follower p i
  /\ get_log_start (k_leader s) = get_log_start (k_follower s i)
  /\ get_leo (k_leader s) = get_leo (k_follower s i) /\ get_hw (k_leader s) = get_leo (k_leader s)
  /\ zlen (log_bytes (k_follower s i)) < zlen (log_bytes (k_leader s)).
Proof.
  exists (cut_p 80), (round2 80 long), 2. split; [apply cut_p_ok; lia|]. split; [apply round2_reachable; left; reflexivity|]. split; [apply cut_p_follower|].
  vm_compute. repeat split.
Qed.
Lemma whole_ex : params_ok (cut_p 1000) /\ c_seg_max (p_conf (cut_p 1000)) <= p_max_bytes (cut_p 1000) /\ reachable (cut_p 1000) (round2 1000 long)
  /\ follower (cut_p 1000) 2 /\ accepts (cut_p 1000) 2 /\ get_hw (k_leader (round2 1000 long)) = 1 /\ get_leo (k_follower (round2 1000 long) 2) = 1
  /\ log_bytes (k_follower (round2 1000 long) 2) = log_bytes (k_leader (round2 1000 long)).
Proof.
  split; [apply cut_p_ok; lia|]. split; [vm_compute; congruence|]. split; [apply round2_reachable; right; reflexivity|]. split; [apply cut_p_follower|].
  split; [split; vm_compute; congruence|]. split; [vm_compute; reflexivity|]. split; vm_compute; reflexivity.
Qed.

(** * A leader that restarts behind its followers *)
Lemma write_batch_hw c now r b : get_hw (fst (write_batch c now r b)) = get_hw r.
Proof.
  unfold write_batch. destruct (r_short r); [reflexivity|]. destruct (append_batch c now (r_active r) b) as [m [| |e]]; cbn; try reflexivity.
  - destruct (append_batch c now _ b) as [m' [| |e]]; cbn; try reflexivity; unfold fail_append; try destruct e; reflexivity.
  - unfold fail_append; try destruct e; reflexivity.
Qed.
Lemma write_batches_hw c now l : forall r, get_hw (fst (write_batches c now r l)) = get_hw r.
Proof.
  induction l as [|b l IH]; intros r; [reflexivity|]. cbn [write_batches]. pose proof (write_batch_hw c now r b) as H.
  destruct (write_batch c now r b) as [r1 [e|]]; cbn [fst] in *; [assumption|]. rewrite IH. assumption.
Qed.
Lemma leader_write_hw c now isr r l : isr <> 1 -> get_hw (fst (leader_write c now isr r l)) = get_hw r.
Proof.
  intros N. unfold leader_write, write_recordset. destruct (_ =? 0); [reflexivity|]. destruct (check_limits c l); [reflexivity|].
  pose proof (write_batches_hw c now l r) as H. destruct (write_batches c now r l) as [r1 [e|]]; cbn [fst] in *; [assumption|].
  apply Z.eqb_neq in N. rewrite N. assumption.
Qed.
Lemma default_view p i q : view i (initial_views (p_leader p) (p_replicas p)) = Some q -> q = default_info.
Proof. intros V. apply view_in in V. apply in_map_iff in V as (j & E & _). inversion E. reflexivity. Qed.

(** If every follower has a larger watermark than the leader, nothing is ever
    replicated or committed again. *)
Lemma behind_stuck p s r s' : params_ok p -> (exists i, follower p i) ->
  (forall i, follower p i -> get_hw r < get_hw (k_follower s i)) ->
  runs p exchange_or_produce (restarted_leader p s r) s' ->
  get_hw (k_leader s') = get_hw r /\ forall i, k_follower s' i = k_follower s i.
Proof.
  intros PO (i0 & F0) HF RS.
  assert (in_sync_replica (p_replicas p) <> 1) as ISR.
  { rewrite (isr_value p PO false). assert (In i0 (follower_ids (p_leader p) (p_replicas p))) as I0 by (apply follower_ids_in; exact F0).
    destruct (follower_ids _ _); [destruct I0|]. rewrite zlen_cons. pose proof (zlen_nonneg l). lia. }
  assert (get_hw (k_leader s') = get_hw r /\ k_views s' = initial_views (p_leader p) (p_replicas p) /\ k_follower s' = k_follower s
    /\ forall m, In m (k_net s') -> exists i, follower p i /\ m = ToLeader i (as_offset (k_follower s i))) as X.
  { remember (restarted_leader p s r) as s0 eqn:E0. induction RS as [s0|s0 s1 s2 e RS IH PE ST].
    - subst s0. split; [reflexivity|]. split; [reflexivity|]. split; [reflexivity|]. intros m [].
    - destruct (IH E0) as (HW & VW & FW & NW). 
      destruct ST as [now l OK NS RM|i seen m FI SB UP|i now m NET RM|i FI|i q seen r' v NET SB UP|a r' CA OKa EX|i a r' CA OKa EX|i now k r' CK EX];
        try (destruct PE as [[]|(? & ? & PE)]; discriminate).
      + cbn [k_leader k_views k_follower k_net]. rewrite leader_write_hw by assumption. auto.
      + exfalso. unfold follower_updates in UP. destruct (view i (k_views s1)) as [q|] eqn:V; [|discriminate]. rewrite VW in V. rewrite (default_view _ _ _ V) in UP. discriminate.
      + exfalso. destruct (NW _ NET) as (j & _ & X). discriminate.
      + cbn [k_leader k_views k_follower k_net]. split; [assumption|]. split; [assumption|]. split; [assumption|].
        intros m [<-|IM]; [exists i; rewrite FW; auto|apply NW; assumption].
      + destruct (NW _ NET) as (j & FJ & X). inversion X; subst j q. destruct SB as (SB & _). specialize (HF i FJ).
        unfold update_states_from_followers, newer in UP. cbn [as_offset i_hw i_leo] in UP.
        replace (i_hw seen <? get_hw (k_follower s i)) with true in UP by (symmetry; apply Z.ltb_lt; lia). rewrite orb_true_r in UP. inversion UP; subst. auto. }
  destruct X as (A & _ & B & _). split; [assumption|]. intros i. rewrite B. reflexivity.
Qed.

(** Two records replicated and committed; the leader restarts without its
    checkpoint. *)
Definition behind_s : cluster :=
  let p := cut_p 1000 in let s := do_send p 2 (round2 1000 long) in do_deliver p 2 0 (sent p 2 (round2 1000 long)) s.
Lemma behind_reachable : reachable (cut_p 1000) behind_s.
Proof.
  unfold behind_s; cbv zeta. apply reach_deliver; [left; reflexivity|room_tac|]. apply reach_send; [apply cut_p_follower|le_tac|eexists; vm_compute; reflexivity|].
  apply round2_reachable. right. reflexivity.
Qed.
Lemma restart_stuck_refuted : exists p s now k r, params_ok p /\ c_seg_max (p_conf p) <= p_max_bytes p /\ reachable p s
  /\ (exists i, follower p i) /\ 0 <= ckpt_value (m_base (r_active (k_leader s))) k <= get_hw (k_leader s)
  /\ exec (p_conf p) (k_leader s) (Restart now k) = Done r /\ get_hw r < get_leo r
  /\ forall s', runs p exchange_or_produce (restarted_leader p s r) s' ->
       get_hw (k_leader s') = get_hw r /\ forall i, k_follower s' i = k_follower s i.
Proof.
  exists (cut_p 1000), behind_s, 0, Missing.
  destruct (exec (p_conf (cut_p 1000)) (k_leader behind_s) (Restart 0 Missing)) as [r|e] eqn:EX; [|vm_compute in EX; discriminate].
  assert (get_hw r = 0 /\ get_leo r = 1) as (H1 & H2) by (vm_compute in EX; inversion EX; split; reflexivity).
  exists r. split; [apply cut_p_ok; lia|]. split; [vm_compute; congruence|]. split; [apply behind_reachable|].
  split; [exists 2; apply cut_p_follower|]. split; [vm_compute; split; congruence|]. split; [reflexivity|]. split; [lia|].
  intros s' RS. apply (behind_stuck (cut_p 1000) behind_s r s'); [apply cut_p_ok; lia|exists 2; apply cut_p_follower| |exact RS].
  intros i (FI & NE). rewrite H1. cbn in FI, NE. destruct FI as [<-|[<-|[]]]; [congruence|]. vm_compute. reflexivity.
Qed.

Lemma round2_runs : params_ok (cut_p 1000) /\ reachable (cut_p 1000) (round1 1000 long) /\ runs (cut_p 1000) no_restart (round1 1000 long) (round2 1000 long)
  /\ get_hw (k_leader (round1 1000 long)) = 0 /\ get_hw (k_leader (round2 1000 long)) = 1.
Proof.
  split; [apply cut_p_ok; lia|]. split; [apply round1_reachable; right; reflexivity|]. split; [|vm_compute; split; reflexivity].
  unfold round2. cbv zeta. set (s4 := round1 1000 long). set (p := cut_p 1000).
  set (s5 := do_deliver p 2 0 (sent p 2 s4) s4). set (s6 := do_report 2 s5).
  apply (runs_more p no_restart s4 s6 _ (Receive 2 (as_offset (k_follower s6 2)) (as_offset (k_leader s6)))); [|exact I|].
  - apply (runs_more p no_restart s4 s5 _ (Report 2)); [|exact I|apply step_report; apply cut_p_follower].
    apply (runs_more p no_restart s4 s4 _ (Deliver 2 0 (sent p 2 s4))); [apply runs_none|exact I|].
    apply step_deliver; [left; vm_compute; reflexivity|room_tac].
  - apply step_receive; [left; reflexivity|split; vm_compute; [split; congruence|congruence]|apply surjective_pairing].
Qed.
Lemma dup_ex : let p := cut_p 1000 in let s := round1 1000 long in let m := sent p 2 s in
  let s1 := do_deliver p 2 0 m s in let s2 := do_deliver p 2 5 m s1 in
  reachable p s /\ ReplicationSpec.step p s (Deliver 2 0 m) s1 /\ ReplicationSpec.step p s1 (Deliver 2 5 m) s2 /\ log_bytes (k_follower s1 2) <> log_bytes (k_follower s 2).
Proof.
  cbv zeta. split; [apply round1_reachable; right; reflexivity|]. split; [apply step_deliver; [left; vm_compute; reflexivity|room_tac]|].
  split; [apply step_deliver; [left; vm_compute; reflexivity|room_tac]|]. vm_compute. discriminate.
Qed.
Lemma progress_ex : params_ok (cut_p 1000) /\ reachable (cut_p 1000) (round1 1000 long) /\ follower (cut_p 1000) 2 /\ accepts (cut_p 1000) 2
  /\ get_log_start (k_leader (round1 1000 long)) <= get_leo (k_follower (round1 1000 long) 2) < get_leo (k_leader (round1 1000 long)).
Proof.
  split; [apply cut_p_ok; lia|]. split; [apply round1_reachable; right; reflexivity|]. split; [apply cut_p_follower|].
  split; [split; vm_compute; congruence|]. vm_compute. split; [congruence|reflexivity].
Qed.
