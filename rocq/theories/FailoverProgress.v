From Verif Require Import ReplicationModel ReplicationSpec StorageSpec RecordSpec RecordProofs StorageProofs ReplicaProofs StorageClaims ReplicationProofs ClusterProofs ReplicationClaims WireProofs ListFacts FailoverModel FailoverSpec FailoverProofs.

(** * The invariant of a replica is about the stored bytes *)
Lemma entry_sims base l l' e : sims l l' -> entry_ok base l e -> entry_ok base l' e.
Proof.
  intros S (p & q & -> & A & B). apply Forall2_app_inv_l in S as (p' & q' & Sp & Sq & ->). exists p', q'. split; [reflexivity|].
  assert (encs p' = encs p) as -> by (apply sims_encs; exact Sp). split; [assumption|]. eapply sims_chain; eassumption.
Qed.
Lemma seg_sims c b e log es l l' : sims l l' -> Forall raw_batch_ok l' -> seg_inv c b e log es l -> seg_inv c b e log es l'.
Proof.
  intros S OK (A & B & C & D & E). split; [rewrite A; symmetry; apply sims_encs; exact S|]. split; [eapply sims_chain; eassumption|]. split; [assumption|].
  split; [|assumption]. eapply Forall_impl; [|exact D]. intros x. apply entry_sims. assumption.
Qed.
Lemma segs_sims c : forall prev s ls e L', segs_inv c s prev ls e -> sims (concat ls) L' -> Forall raw_batch_ok L' ->
  exists ls', L' = concat ls' /\ segs_inv c s prev ls' e.
Proof.
  induction prev as [|g prev IH]; intros s [|l ls] e L' I S OK; cbn [segs_inv] in I; try contradiction.
  - inversion S; subst. exists []. split; reflexivity.
  - destruct I as (A & (B & NE) & C). cbn [concat] in S. apply Forall2_app_inv_l in S as (a & b & Sa & Sb & ->). apply Forall_app in OK as (OA & OB).
    destruct (IH _ _ _ _ C Sb OB) as (ls' & -> & I'). exists (a :: ls'). split; [reflexivity|]. cbn [segs_inv]. split; [assumption|]. split; [|assumption].
    split; [eapply seg_sims; eassumption|]. intros ->. inversion Sa; subst. congruence.
Qed.
Lemma inv_sims c r L L' : inv c r L -> sims L L' -> Forall raw_batch_ok L' -> inv c r L'.
Proof.
  intros (s & ls & act & -> & (A & (B & C) & D)) S OK. apply Forall2_app_inv_l in S as (a & b & Sa & Sb & ->). apply Forall_app in OK as (OA & OB).
  destruct (segs_sims _ _ _ _ _ _ A Sa OA) as (ls' & -> & A'). exists s, ls', b. split; [reflexivity|]. split; [assumption|]. split; [|assumption].
  split; [eapply seg_sims; eassumption|assumption].
Qed.
Lemma good_received b : good b -> good (received raw_codec b).
Proof. intros (A & B). split; [eapply rel_ok; [exact A|apply received_rel]|rewrite (rel_schema _ _ _ (received_rel b)); exact B]. Qed.
Lemma sims_received l : sims l (map (received raw_codec) l).
Proof. induction l; cbn [map]; constructor; [symmetry; apply received_idem|assumption]. Qed.

Lemma has_exact H c r : Forall good H -> has H c r -> exists dr L, H = dr ++ L /\ inv c r L /\ chain 0 dr (get_log_start r).
Proof.
  intros G (dr & L & I & S & CD). apply Forall2_app_inv_r in S as (a & b & Sa & Sb & ->). exists a, b. split; [reflexivity|].
  apply Forall_app in G as (_ & G). split; [eapply inv_sims; [exact I|apply sims_sym; exact Sb|eapply Forall_impl; [|exact G]; intros x (X & _); exact X]|].
  eapply sims_chain; [apply sims_sym; exact Sa|exact CD].
Qed.
Lemma fol_foll H c r : Forall good H -> fol H c r -> r_short r = false -> foll true H c r.
Proof.
  intros G (n & X) SH. assert (has (map (received raw_codec) (firstn n H)) c r) as Y by (eapply has_sims; [apply sims_sym, sims_received|exact X]).
  apply has_exact in Y as (dr & L & E & I & CD).
  - exists n, dr, L. split; [assumption|]. split; [rewrite <- E; apply rel_received|]. auto.
  - rewrite Forall_map. eapply Forall_impl; [|apply Forall_firstn; exact G]. intros b. apply good_received.
Qed.

(** * Messages that are there anyway *)
Definition with_net (N : list msg) (s : cluster) : cluster := mkCluster (k_leader s) (k_views s) (k_follower s) (k_net s ++ N).
Lemma exchange_more p N s e s' : exchange e -> ReplicationSpec.step p s e s' -> ReplicationSpec.step p (with_net N s) e (with_net N s').
Proof.
  intros EX ST. destruct ST as [now b OK NS RM|a seen m FO SB UP|a now m NET RM|a FO|a q seen r v NET SB UP|a r CA OKa EX'|a o r CA OKa EX'|a now k r CK EX']; try destruct EX; unfold with_net; cbn [k_leader k_views k_follower k_net].
  - apply (step_send p (with_net N s)); assumption.
  - apply (step_deliver p (with_net N s)); [apply in_or_app; left; exact NET|exact RM].
  - apply (step_report p (with_net N s)); assumption.
  - apply (step_receive p (with_net N s)); [apply in_or_app; left; exact NET|exact SB|exact UP].
Qed.
Lemma runs_more_net p N s s' : runs p exchange s s' -> runs p exchange (with_net N s) (with_net N s').
Proof. intros R. induction R as [s|s s1 s2 e R IH PE ST]; [constructor|]. eapply runs_more; [exact IH|exact PE|]. apply exchange_more; assumption. Qed.

(** * Completion *)
Section Progress.
Variable g : members.
Hypothesis GO : members_ok g.

(** The leader's watermark is not behind all positions it knows. *)
Definition seen_min (y : system) : Prop :=
  k_views (y_cluster y) = [] \/ exists x, In x (k_views (y_cluster y)) /\ i_leo (snd x) <= get_hw (k_leader (y_cluster y)).

Lemma initial_min l s : k_views s = initial_views l (g_replicas g) -> 0 <= get_hw (k_leader s) -> forall lost, seen_min (mkSystem l lost s).
Proof.
  intros E H0 lost. unfold seen_min. cbn [y_cluster]. rewrite E. destruct (initial_views l (g_replicas g)) as [|x v] eqn:IV; [left; reflexivity|]. right. exists x. split; [left; reflexivity|].
  assert (In x (initial_views l (g_replicas g))) as IX by (rewrite IV; left; reflexivity). destruct (initial_default g l x IX) as (D & _). rewrite D. cbn. lia.
Qed.

Lemma follower_ids_nonempty l i : follower (led_by g l) i -> follower_ids l (g_replicas g) <> [].
Proof. intros F E. assert (In i (follower_ids l (g_replicas g))) as K by (apply follower_ids_in; exact F). rewrite E in K. destruct K. Qed.

Lemma act_min H l lost s e s' : finv g H (mkSystem l lost s) -> seen_min (mkSystem l lost s) -> ReplicationSpec.step (led_by g l) s e s' -> seen_min (mkSystem l lost s').
Proof.
  intros FI MN ST. pose proof (fi_part _ _ _ FI) as TL. pose proof TL as (IL & NLL). cbn [y_leader y_lost] in IL, NLL.
  pose proof (fi_leader _ _ _ FI) as HL. cbn [y_leader y_cluster] in HL.
  pose proof (fi_hw _ _ _ FI l l TL TL) as HWL. rewrite (nl l lost s) in HWL. cbn [y_cluster] in HWL.
  assert (forall s1, k_views s1 = k_views s -> get_hw (k_leader s) <= get_hw (k_leader s1) -> seen_min (mkSystem l lost s1)) as UP1.
  { intros s1 E LE. unfold seen_min in *. cbn [y_cluster] in *. rewrite E. destruct MN as [E0|(x & IX & XL)]; [left; assumption|]. right. exists x. split; [assumption|lia]. }
  destruct ST as [now b OK NS RM|i seen m FO SB UP|i now m NET RM|i FO|i q seen r v NET SB UP|a r CA OKa EX|i a r CA OKa EX|i now k r CK EX]; try (apply UP1; [reflexivity|apply Z.le_refl]).
  - (* produce *)
    apply UP1; [reflexivity|]. cbn [k_leader led_by p_conf p_replicas]. unfold leader_write. destruct (total_records b =? 0); [cbn [fst]; lia|].
    cbn [led_by p_conf] in *. set (upd := in_sync_replica (g_replicas g) =? 1).
    destruct (write_recordset (g_conf g l) now (k_leader s) b upd) as [r res] eqn:W. cbn [fst].
    destruct HL as (dr & L & I & S & CD). pose proof I as (s0 & ls & act & EL & IA).
    destruct (write_recordset_at _ _ _ _ _ _ _ _ _ _ (conf_ok g GO l) IA OK RM W) as (j & ls' & act' & IA' & J & EC & LEO & D).
    pose proof (total_nonneg (firstn j b)) as TN. destruct res; destruct D as (_ & ->); [lia|]. destruct upd; lia.
  - (* receive *)
    unfold update_states_from_followers in UP.
    assert (seen_min (mkSystem l lost (mkCluster (k_leader s) (k_views s) (k_follower s) (k_net s)))) as NOTHING by (apply UP1; [reflexivity|apply Z.le_refl]).
    destruct (newer q seen) eqn:NW; [inversion UP; subst; exact NOTHING|].
    destruct (view i (k_views s)) as [w|] eqn:V; [|inversion UP; subst; exact NOTHING].
    destruct (update_info w q) as [w' ch] eqn:UI. destruct ch; [|inversion UP; subst; exact NOTHING].
    pose proof (update_info_le _ _ _ _ UI) as (W1 & W2 & W3 & W4).
    set (v' := set_view i w' (k_views s)) in *.
    assert (map fst v' = follower_ids l (g_replicas g)) as VK by (unfold v'; rewrite set_view_keys; apply (fi_keys _ _ _ FI)).
    assert (map fst (k_views s) = follower_ids l (g_replicas g)) as KS by exact (fi_keys _ _ _ FI).
    assert (NoDup (map fst (k_views s))) as ND by (rewrite KS; apply follower_ids_nodup; apply GO).
    unfold newer in NW. apply orb_false_iff in NW as (NW1 & NW2). destruct SB as (SB1 & SB2).
    destruct (is_committed seen) eqn:IC.
    { inversion UP; subst. unfold is_committed in IC. destruct MN as [E0|(x & IX & XL)]; cbn [y_cluster] in *; [rewrite E0 in V; discriminate|].
      right. cbn [y_cluster k_views k_leader]. destruct (Z.eq_dec (fst x) i) as [EX|NE].
      - exists (i, w'). split; [apply view_in; eapply set_view_same; exact V|]. cbn [snd].
        assert (i_leo w <= get_hw (k_leader s)) by (rewrite (view_unique _ _ _ _ ND V IX EX); assumption). lia.
      - exists x. split; [|assumption]. apply set_view_kept; assumption. }
    cbn [led_by p_replicas] in UP. pose proof (isr_value _ (led_ok g GO l IL) true) as IS. cbn [led_by p_replicas p_leader] in IS. set (isr := in_sync_replica (g_replicas g)) in *.
    assert (zlen v' = zlen (follower_ids l (g_replicas g))) as LV by (rewrite <- VK; unfold zlen; rewrite map_length; reflexivity).
    assert (isr < 65536) as I16 by (unfold isr, in_sync_replica, wrap_u; change (2 ^ 16) with 65536; apply Z.mod_pos_bound; lia).
    pose proof (compute_hw_spec (i_hw seen) isr (map (fun x => i_leo (snd x)) v') ltac:(pose proof (zlen_nonneg v'); lia)) as CS. cbv zeta in CS.
    assert (v' <> []) as NV.
    { intros E. pose proof (set_view_same i w' _ _ V) as X. fold v' in X. rewrite E in X. discriminate. }
    assert (Nat.max 1 (Nat.min (Z.to_nat (isr - 1)) (length (map (fun x => i_leo (snd x)) v'))) = length (map (fun x : Z * info => i_leo (snd x)) v')) as NN.
    { rewrite map_length. assert (Z.to_nat (isr - 1) = length v') by (unfold zlen in *; lia). destruct v'; [congruence|]. cbn [length] in *. lia. }
    rewrite NN in CS. right.
    destruct (compute_hw (i_hw seen) isr (map (fun x => i_leo (snd x)) v')) as [hw|]; inversion UP; subst r v; cbn [y_cluster k_views k_leader].
    + destruct CS as (_ & (_ & R2)). specialize (R2 (hw + 1) ltac:(lia)). apply reached_less in R2 as (y & IY & LY). apply in_map_iff in IY as (x & <- & IX). exists x. split; [assumption|].
      change (get_hw (update_hw (k_leader s) hw)) with hw. lia.
    + apply reached_less in CS as (y & IY & LY). apply in_map_iff in IY as (x & <- & IX). exists x. split; [assumption|lia].
  - (* retention at the leader *)
    destruct (clean_has _ _ _ _ _ (conf_ok g GO l) HL CA OKa EX) as (A & B & C & D). apply UP1; [reflexivity|cbn [k_leader]; lia].
Qed.

Lemma fstep_min H y e y' : finv g H y -> complete g y e -> seen_min y -> fstep g y e y' -> seen_min y'.
Proof.
  intros FI CO MN ST. destruct (fstep_ok g GO _ _ _ _ FI CO ST) as (H' & FI' & _). pose proof (fi_part _ _ _ FI') as TP.
  pose proof (fi_hw _ _ _ FI' _ _ TP TP) as HW. rewrite node_leader in HW. clear FI' TP.
  destruct y as [l lost s]. destruct ST as [e s' AC ST|now k r CK EX|j now k gone late old FJ NJ NG IN CK EX]; cbn [y_leader y_lost y_cluster] in *.
  - eapply act_min; eassumption.
  - apply initial_min; [reflexivity|lia].
  - apply initial_min; [reflexivity|lia].
Qed.
Lemma fruns_min y y' H : finv g H y -> seen_min y -> fruns g (complete g) y y' -> exists H', finv g H' y' /\ seen_min y'.
Proof.
  intros FI MN R. induction R as [y|y y1 y2 e R IH CO ST]; [eauto|]. destruct (IH FI MN) as (H1 & F1 & M1).
  destruct (fstep_ok g GO _ _ _ _ F1 CO ST) as (H2 & F2 & _). exists H2. split; [assumption|]. exact (fstep_min _ _ _ _ F1 CO M1 ST).
Qed.
Lemma begin_min l : In l (g_replicas g) -> seen_min (begin g l).
Proof. intros IL. apply initial_min; [reflexivity|]. cbn. lia. Qed.

Lemma ask H l lost s i : finv g H (mkSystem l lost s) -> follower (led_by g l) i -> ~ In i lost -> get_hw (k_follower s i) <= get_hw (k_leader s) ->
  exists s' h q, runs (led_by g l) exchange s s' /\ fruns g (complete g) (mkSystem l lost s) (mkSystem l lost s')
  /\ k_follower s' = k_follower s /\ k_leader s' = update_hw (k_leader s) h /\ get_hw (k_leader s) <= h
  /\ view i (k_views s') = Some q /\ i_leo q = get_leo (k_follower s i) /\ forall j, j <> i -> view j (k_views s') = view j (k_views s).
Proof.
  intros FI FO NL HF. set (q0 := as_offset (k_follower s i)). set (seen := as_offset (k_leader s)).
  set (s1 := mkCluster (k_leader s) (k_views s) (k_follower s) (ToLeader i q0 :: k_net s)).
  assert (ReplicationSpec.step (led_by g l) s (Report i) s1) as ST1 by (apply step_report; assumption).
  pose proof (fi_part _ _ _ FI) as TL. cbn [y_leader] in TL.
  assert (takes_part g (mkSystem l lost s) i) as TI by (split; [apply FO|exact NL]).
  pose proof (fi_hw _ _ _ FI l l TL TL) as HW0. pose proof (fi_hw _ _ _ FI i i TI TI) as HWI. rewrite (nl l lost s) in HW0. rewrite (node_follower (mkSystem l lost s)) in HWI by apply FO. cbn [y_cluster] in HW0, HWI.
  pose proof (node_le g _ _ _ FI TI) as FL. rewrite (node_follower (mkSystem l lost s)) in FL by apply FO. cbn [y_cluster] in FL.
  destruct (update_states_from_followers (in_sync_replica (p_replicas (led_by g l))) seen (k_leader s1) (k_views s1) i q0) as [r v] eqn:UP.
  assert (ReplicationSpec.step (led_by g l) s1 (Receive i q0 seen) (mkCluster r v (k_follower s1) (k_net s1))) as ST2.
  { apply step_receive; [left; reflexivity|split; cbn; lia|exact UP]. }
  assert (exists h q, r = update_hw (k_leader s) h /\ get_hw (k_leader s) <= h /\ view i v = Some q /\ i_leo q = get_leo (k_follower s i) /\ forall j, j <> i -> view j v = view j (k_views s)) as (h & q & -> & HH & V & L & VO).
  { assert (map fst (k_views s) = follower_ids l (g_replicas g)) as KS by exact (fi_keys _ _ _ FI).
    assert (In i (map fst (k_views s))) as IV by (rewrite KS; apply follower_ids_in; exact FO).
    destruct (view_some _ _ IV) as (w & V). pose proof (fi_views _ _ _ FI _ (view_in _ _ _ V)) as VL. cbn [fst snd y_lost y_cluster] in VL. destruct (in_dec Z.eq_dec i lost) as [|_] in VL; [contradiction|].
    unfold update_states_from_followers, s1 in UP. cbn [k_leader k_views] in UP. unfold newer in UP.
    replace (i_leo seen <? i_leo q0) with false in UP by (symmetry; apply Z.ltb_ge; cbn; lia).
    replace (i_hw seen <? i_hw q0) with false in UP by (symmetry; apply Z.ltb_ge; cbn; lia). cbn [orb] in UP. rewrite V in UP.
    assert (k_leader s = update_hw (k_leader s) (get_hw (k_leader s))) as ID by (destruct (k_leader s); reflexivity).
    destruct (update_info w q0) as [w' ch] eqn:UI. unfold update_info in UI. cbn [q0 as_offset i_hw i_leo] in UI. inversion UI as [[EW EC]].
    assert (i_leo w' = get_leo (k_follower s i)) as LW.
    { subst w'. cbn [i_hw i_leo]. destruct (i_leo w <? get_leo (k_follower s i)) eqn:C2; lia. }
    destruct ch.
    - assert (view i (set_view i w' (k_views s)) = Some w') as V' by (eapply set_view_same; exact V). subst w'.
      assert (forall j, j <> i -> view j (set_view i {| i_hw := if i_hw w <? get_hw (k_follower s i) then get_hw (k_follower s i) else i_hw w; i_leo := if i_leo w <? get_leo (k_follower s i) then get_leo (k_follower s i) else i_leo w |} (k_views s)) = view j (k_views s)) as VO by (intros j NJ; apply set_view_other; exact NJ).
      match type of UP with (if ?x then _ else _) = _ => destruct x end; [inversion UP; subst; exists (get_hw (k_leader s)); eexists; repeat split; eauto; lia|].
      match type of UP with context [compute_hw ?a ?b ?c] => assert (forall h, compute_hw a b c = Some h -> a < h) as CH end.
      { intros h E. pose proof (isr_value _ (led_ok g GO l (proj1 TL)) true) as IS.
        assert (1 <= in_sync_replica (p_replicas (led_by g l)) <= 65536) as I16.
        { split; [pose proof (zlen_nonneg (follower_ids l (g_replicas g))); cbn [led_by p_replicas p_leader] in *; lia|]. unfold in_sync_replica, wrap_u. change (2 ^ 16) with 65536. pose proof (Z.mod_pos_bound (zlen (p_replicas (led_by g l))) 65536). lia. }
        match type of E with compute_hw ?a ?b ?c = _ => pose proof (compute_hw_spec a b c I16) as CS end. cbv zeta in CS. rewrite E in CS. apply CS. }
      destruct (compute_hw _ _ _) as [h|] eqn:E; inversion UP; subst; [exists h|exists (get_hw (k_leader s))]; eexists; repeat split; eauto; try lia. specialize (CH h eq_refl). cbn in CH. unfold seen in CH. cbn [as_offset i_hw] in CH. lia.
    - inversion UP; subst. apply orb_false_iff in EC as (EC1 & EC2). rewrite EC1, EC2 in *. exists (get_hw (k_leader s)), w. split; [assumption|]. split; [lia|]. split; [assumption|]. split; [destruct w; exact LW|reflexivity]. }
  exists (mkCluster (update_hw (k_leader s) h) v (k_follower s1) (k_net s1)), h, q. split.
  { eapply runs_trans; [apply (run1 _ _ _ _ _ (I : exchange (Report i)) ST1)|apply (run1 _ _ _ _ _ (I : exchange (Receive i q0 seen)) ST2)]. }
  split; [|auto 8].
  apply (fruns_more g (complete g) _ (mkSystem l lost s1) _ (Act (Receive i q0 seen))); [apply (fruns_more g (complete g) _ (mkSystem l lost s) _ (Act (Report i))); [apply fruns_none|exact I|]|exact I|].
  - apply (fstep_act g (mkSystem l lost s)); [split; [exact FO|exact NL]|exact ST1].
  - apply (fstep_act g (mkSystem l lost s1)); [exact I|exact ST2].
Qed.

Lemma fruns_trans P y1 y2 y3 : fruns g P y1 y2 -> fruns g P y2 y3 -> fruns g P y1 y3.
Proof. intros A B. induction B as [|? ? ? ? B IH PE ST]; [assumption|]. eapply fruns_more; [apply IH; assumption|exact PE|exact ST]. Qed.

Definition known (s : cluster) (i : Z) : Prop := exists q, view i (k_views s) = Some q /\ i_leo q = get_leo (k_follower s i).

(** Every follower reports once. *)
Lemma ask_all l lost ids : forall H s, finv g H (mkSystem l lost s) -> (forall i, In i ids -> follower (led_by g l) i /\ ~ In i lost /\ get_hw (k_follower s i) <= get_hw (k_leader s)) ->
  exists s' h, runs (led_by g l) exchange s s' /\ fruns g (complete g) (mkSystem l lost s) (mkSystem l lost s')
  /\ k_follower s' = k_follower s /\ k_leader s' = update_hw (k_leader s) h /\ get_hw (k_leader s) <= h
  /\ (forall i, In i ids -> known s' i) /\ forall i, known s i -> known s' i.
Proof.
  induction ids as [|i ids IH]; intros H s FI A.
  - exists s, (get_hw (k_leader s)). split; [apply runs_none|]. split; [apply fruns_none|]. split; [reflexivity|]. split; [destruct (k_leader s); reflexivity|]. split; [lia|]. split; [intros i []|auto].
  - destruct (A i (or_introl eq_refl)) as (FO & NL & HF). destruct (ask H l lost s i FI FO NL HF) as (s1 & h & q & R1 & F1 & EF & EL & HH & V & LQ & VO).
    destruct (fruns_ok g GO _ _ _ FI F1) as (H1 & FI1).
    destruct (IH H1 s1 FI1) as (s2 & h2 & R2 & F2 & EF2 & EL2 & HH2 & K2 & KK2).
    { intros j J. destruct (A j (or_intror J)) as (X1 & X2 & X3). split; [assumption|]. split; [assumption|]. rewrite EF, EL. change (get_hw (update_hw (k_leader s) h)) with h. lia. }
    assert (known s1 i) as KI by (exists q; rewrite EF; auto).
    assert (forall j, known s j -> known s1 j) as KS.
    { intros j (w & Vj & Lj). destruct (Z.eq_dec j i) as [->|N]; [exact KI|]. exists w. rewrite VO, EF by exact N. auto. }
    exists s2, h2. split; [eapply runs_trans; eassumption|]. split; [eapply fruns_trans; eassumption|]. split; [congruence|].
    split; [rewrite EL2, EL; reflexivity|]. rewrite EL in HH2. change (get_hw (update_hw (k_leader s) h)) with h in HH2. split; [lia|].
    split; [intros j [<-|J]; [apply KK2; exact KI|apply K2; exact J]|]. intros j KJ. apply KK2, KS, KJ.
Qed.

Lemma to_cinv H l lost s : finv g H (mkSystem l lost s) -> seen_min (mkSystem l lost s) -> (forall i, In i (g_replicas g) -> ~ In i lost) ->
  (forall i, follower (led_by g l) i -> get_hw (k_follower s i) <= get_hw (k_leader s)) -> (forall i, follower (led_by g l) i -> known s i) ->
  cinv (led_by g l) true H (mkCluster (k_leader s) (k_views s) (k_follower s) []).
Proof.
  intros FI MN NL HF KN. pose proof (fi_part _ _ _ FI) as TL. cbn [y_leader] in TL.
  assert (forall i, follower (led_by g l) i -> takes_part g (mkSystem l lost s) i) as TP by (intros i FO; split; [apply FO|apply NL; apply FO]).
  pose proof (fi_hw _ _ _ FI l l TL TL) as HWL. rewrite (nl l lost s) in HWL.
  assert (map fst (k_views s) = follower_ids l (g_replicas g)) as KS by exact (fi_keys _ _ _ FI).
  assert (NoDup (map fst (k_views s))) as ND by (rewrite KS; apply follower_ids_nodup; apply GO).
  assert (forall x, In x (k_views s) -> follower (led_by g l) (fst x)) as VF.
  { intros x IX. apply (in_map fst) in IX. rewrite KS in IX. apply follower_ids_in in IX. exact IX. }
  constructor; cbn [k_leader k_views k_follower k_net].
  - apply has_exact; [exact (fi_good _ _ _ FI)|exact (fi_leader _ _ _ FI)].
  - exact (fi_good _ _ _ FI).
  - intros i FO. destruct (fi_fol _ _ _ FI i FO (NL i (proj1 FO))) as (A & B). split; [apply fol_foll; [exact (fi_good _ _ _ FI)|exact A|exact B]|].
    pose proof (fi_hw _ _ _ FI i i (TP i FO) (TP i FO)) as K. rewrite (node_follower (mkSystem l lost s)) in K by apply FO. cbn [y_cluster] in K. specialize (HF i FO). lia.
  - exact KS.
  - intros x IX. pose proof (fi_views _ _ _ FI x IX) as V. cbn [y_lost y_cluster] in V. destruct (in_dec _ _ _) as [Y|_]; [|exact V]. exfalso. eapply NL; [|exact Y]. apply (VF x IX).
  - right. intros x IX. destruct (KN (fst x) (VF x IX)) as (q & V & LQ). rewrite (view_unique _ _ _ _ ND V IX eq_refl) in LQ. rewrite LQ.
    pose proof (fi_hw _ _ _ FI l (fst x) TL (TP _ (VF x IX))) as K. rewrite (nl l lost s), (node_follower (mkSystem l lost s) (fst x)) in K by apply (VF x IX). apply K.
  - exact MN.
  - exact HWL.
  - intros m [].
Qed.

Lemma elected_completes l y i0 : In l (g_replicas g) -> fruns g (complete g) (begin g l) y ->
  (forall i, In i (g_replicas g) -> ~ In i (y_lost y)) -> (forall i, In i (g_replicas g) -> get_hw (node y i) <= get_hw (node y (y_leader y))) ->
  follower (led_by g (y_leader y)) i0 -> (forall i, follower (led_by g (y_leader y)) i -> accepts (led_by g (y_leader y)) i) ->
  (forall i, In i (g_replicas g) -> get_log_start (node y (y_leader y)) <= get_leo (node y i)) -> get_leo (node y (y_leader y)) < 2 ^ 31 ->
  exists s', runs (led_by g (y_leader y)) exchange (y_cluster y) s'
    /\ let y' := mkSystem (y_leader y) (y_lost y) s' in
       log_bytes (node y' (y_leader y)) = log_bytes (node y (y_leader y)) /\ get_hw (node y' (y_leader y)) = get_leo (node y (y_leader y))
       /\ forall i, In i (g_replicas g) -> get_leo (node y' i) = get_leo (node y (y_leader y)).
Proof.
  intros IL R NL HF F0 AC LS RM. destruct (fruns_min _ _ _ (begin_ok g GO l IL) (begin_min l IL) R) as (H & FI & MN).
  destruct y as [ld lost s]. cbn [y_leader y_lost y_cluster] in *. rewrite (nl ld lost s) in *.
  assert (forall i, follower (led_by g ld) i -> node (mkSystem ld lost s) i = k_follower s i) as NF by (intros i FO; rewrite node_follower by apply FO; reflexivity).
  destruct (ask_all ld lost (follower_ids ld (g_replicas g)) H s FI) as (s1 & h & R1 & F1 & EF & EL & HH & KN & _).
  { intros i I. apply follower_ids_in in I. split; [exact I|]. split; [apply NL; apply I|]. rewrite <- (NF i I). apply HF. apply I. }
  destruct (fruns_min _ _ _ FI MN F1) as (H1 & FI1 & MN1).
  assert (cinv (led_by g ld) true H1 (mkCluster (k_leader s1) (k_views s1) (k_follower s1) [])) as CI.
  { apply (to_cinv H1 ld lost); [assumption|assumption|assumption| |].
    - intros i FO. rewrite EF, EL. change (get_hw (update_hw (k_leader s) h)) with h. specialize (HF i (proj1 FO)). rewrite (NF i FO) in HF. lia.
    - intros i FO. apply KN. apply follower_ids_in. exact FO. }
  pose proof (fi_part _ _ _ FI) as (ILD & _). cbn [y_leader] in ILD.
  destruct (completes_from (led_by g ld) (led_ok g GO ld ILD) (full_ok g GO ld eq_refl) _ _ i0 CI F0 AC) as (s2 & R2 & A & B & C & D); cbn [k_leader k_follower].
  { intros i FO. rewrite EF, EL. change (get_log_start (update_hw (k_leader s) h)) with (get_log_start (k_leader s)). specialize (LS i (proj1 FO)). rewrite (NF i FO) in LS. exact LS. }
  { rewrite EL. exact RM. }
  cbn [k_leader] in A, B, C, D. rewrite EL in A, B, C, D.
  apply (runs_more_net _ (k_net s1)) in R2. unfold with_net at 1 in R2. cbn [k_leader k_views k_follower k_net app] in R2.
  exists (with_net (k_net s1) s2). split; [eapply runs_trans; [exact R1|destruct s1; exact R2]|]. rewrite nl. unfold with_net. cbn [k_leader].
  split; [exact A|]. split; [exact C|]. intros i II. unfold node. cbn [y_leader y_cluster k_leader k_follower]. destruct (i =? ld) eqn:E; [exact B|]. apply D. split; [exact II|]. apply Z.eqb_neq. exact E.
Qed.
End Progress.
