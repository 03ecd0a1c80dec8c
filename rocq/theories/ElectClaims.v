From Verif Require Import Base ControlModel ControlSpec TopicProofs ControlClaims HealthModel ElectModel ElectSpec ElectProofs.
From Coq Require Import Lia.

Local Arguments virt : simpl never.

(** ** A pass *)

Record pass_inv (s : elects) : Prop := {
  i_base : base s;
  i_queue : e_todo s <> [] -> e_queue s = [];
  i_once : NoDup (map fst (e_todo s));
  i_sorted : sorted (e_todo s);
  i_status : forall k st, In (k, st) (e_todo s) ->
    In (k, st) (e_spus s) \/ (In k (e_changed s) /\ exists b, In (k, as_status b) (e_spus s)) }.

Definition fine (s : elects) (a : elect_act) : Prop :=
  plausible s a /\
  match a with
  | EStart _ => e_queue s = [] \/ e_changed s = []
  | EReport k _ | EResolution k _ => undisturbed s k /\ by_leader s k
  | EDelete _ | ERestart => False
  | _ => True
  end.

Lemma in_set : forall k st l k' st', In (k', st') l -> k' <> k -> In (k', st') (set_status k st l).
Proof.
  intros k st l k' st' H N. unfold set_status. apply in_map_iff. exists (k', st'). split; [|exact H]. cbn.
  destruct (Z.eqb_spec k' k); [contradiction|reflexivity].
Qed.
Lemma in_set_new : forall k st l st', In (k, st') l -> In (k, st) (set_status k st l).
Proof.
  intros k st l st' H. unfold set_status. apply in_map_iff. exists (k, st'). split; [|exact H]. cbn.
  rewrite Z.eqb_refl. reflexivity.
Qed.
Lemma set_in : forall k st l k' st', In (k', st') (set_status k st l) -> (k' = k /\ st' = st) \/ (k' <> k /\ In (k', st') l).
Proof.
  intros k st l k' st' H. unfold set_status in H. apply in_map_iff in H as ([x y] & E & HI).
  cbn in E. destruct (Z.eqb_spec x k); [left; split; congruence|right]. injection E as <- <-. auto.
Qed.
Lemma find_spu_in : forall k l st, find_spu k l = Some st -> In (k, st) l.
Proof.
  intros k l st H. unfold find_spu in H. destruct (find _ l) as [[x y]|] eqn:E; [|discriminate].
  cbn in H. injection H as ->. apply find_some in E as [HI E]. apply Z.eqb_eq in E. cbn in E. congruence.
Qed.
Lemma in_changed_now : forall s k st, In (k, st) (changed_now s) <-> In (k, st) (e_spus s) /\ In k (e_changed s).
Proof. intros s k st. unfold changed_now. rewrite filter_In. cbn. rewrite zmem_in. reflexivity. Qed.
Lemma order_nil : forall order s, order_of order (changed_now s) = true -> e_changed s = [] -> order = [].
Proof.
  intros order s H E. destruct (order_in _ _ H) as [_ G]. destruct order as [|[k st] o]; [reflexivity|].
  exfalso. assert (HI : In (k, st) (changed_now s)) by (apply G; left; reflexivity).
  apply in_changed_now in HI as [_ HI]. rewrite E in HI. destruct HI.
Qed.

Lemma pass_step : forall s a s', pass_inv s -> fine s a -> estep s a = Some s' -> pass_inv s'.
Proof.
  intros s a s' [IB IQ IO IS IT] [PL FI] H. pose proof (base_step _ _ _ IB PL H) as IB'.
  destruct a; try contradiction; cbn in H.
  - destruct (known k (e_spus s)); [discriminate|]. injection H as <-. split; cbn; try assumption.
    intros k' st HI. destruct (IT _ _ HI) as [G|[G1 [b G2]]].
    + left. apply in_or_app. left. exact G.
    + right. split; [right; exact G1|]. exists b. apply in_or_app. left. exact G2.
  - destruct (find_spu k (e_spus s)) as [st|] eqn:E; [|discriminate]. apply find_spu_in in E.
    destruct (status_eqb st (as_status up)); injection H as <-; [split; assumption|].
    split; cbn; try assumption.
    intros k' st' HI. destruct (Z.eq_dec k' k) as [->|NE].
    + right. split; [left; reflexivity|]. exists up. eapply in_set_new, E.
    + destruct (IT _ _ HI) as [G|[G1 [b G2]]].
      * left. apply in_set; assumption.
      * right. split; [right; exact G1|]. exists b. apply in_set; assumption.
  - destruct (find_part k (e_parts s)); [discriminate|]. injection H as <-. split; cbn; assumption.
  - destruct (find_part k (e_parts s)); [|discriminate]. injection H as <-. destruct FI as [[T _] _].
    split; cbn; try assumption. congruence.
  - destruct (find_part k (e_parts s)); [|discriminate]. injection H as <-. destruct FI as [[T _] _].
    split; cbn; try assumption. congruence.
  - destruct (e_todo s) eqn:ET; [|discriminate]. destruct (e_acc s); [|discriminate].
    destruct (order_of order (changed_now s)) eqn:EO; [|discriminate].
    pose proof (order_nil _ _ EO) as ON. destruct (order_in _ _ EO) as [ND IN]. injection H as <-.
    split; cbn; try assumption.
    + intros N. destruct FI as [Q|C]; [exact Q|]. rewrite (ON C) in N. cbn in N. congruence.
    + apply in_turn_nodup, ND.
    + apply in_turn_sorted.
    + intros k st HI. left. apply in_turn_in in HI as [HI _]. apply IN, in_changed_now in HI as [HI _]. exact HI.
  - destruct (e_todo s) as [|e t] eqn:ET; [discriminate|]. injection H as <-. split; cbn; try assumption.
    + intros _. apply IQ. discriminate.
    + inversion IO; assumption.
    + eapply sorted_tail, IS.
    + intros k st HI. apply IT. right. exact HI.
  - destruct (e_todo s); [|discriminate]. destruct (e_acc s) as [|x t] eqn:EA; [discriminate|]. injection H as <-.
    split; cbn; try assumption. intros N. congruence.
  - destruct (e_queue s) as [|x t] eqn:EQ; [discriminate|]. injection H as <-.
    split; cbn; try assumption. intros N. specialize (IQ N). discriminate.
  - injection H as <-. split; cbn; try assumption.
    intros k st HI. destruct (IT _ _ HI) as [G|[G1 [b G2]]]; [left; exact G|right].
    split; [|eauto]. change k with (fst (k, as_status b)). apply in_map, G2.
Qed.

(** ** One partition *)

Definition lead (p : partition) : Z := ps_leader (pt_spec p).
Inductive fate (s : elects) (p : partition) : Prop :=
| f_led : up s (lead (virt s p)) -> fate s p
| f_changed : In (lead (virt s p)) (e_changed s) -> In (lead (virt s p), SOffline) (e_spus s) -> fate s p
| f_todo : In (lead p, SOffline) (e_todo s) -> fate s p
| f_nobody : is_readable (pt_status (virt s p)) = false ->
    (e_todo s <> [] -> lead (virt s p) = lead p) ->
    (forall r, In r (st_replicas (pt_status (virt s p))) -> up s (r_spu r) ->
      lag (st_leader (pt_status (virt s p))) r < 4 ->
      In (r_spu r) (e_changed s) \/ (is_readable (pt_status p) = false /\ In (r_spu r, SOnline) (e_todo s))) ->
    fate s p
| f_full : st_res (pt_status (virt s p)) = POutOfStorage -> (e_todo s <> [] -> is_readable (pt_status p) = true) ->
    ~ could_lead s (virt s p) -> fate s p.

Record part_inv (s : elects) (p : partition) : Prop := {
  p_fresh : In (lead p, SOffline) (e_todo s) -> Forall (fun a => key_of a <> pt_key p) (e_acc s);
  p_view : e_todo s <> [] -> st_leader (pt_status (virt s p)) = st_leader (pt_status p) /\
                             st_replicas (pt_status (virt s p)) = st_replicas (pt_status p);
  p_fate : fate s p }.

Lemma same_part : forall l p q, NoDup (map pt_key l) -> In p l -> In q l -> pt_key p = pt_key q -> p = q.
Proof.
  induction l as [|x l IH]; cbn; intros p q ND HP HQ E; [contradiction|]. inversion ND as [|y z N D]; subst.
  destruct HP as [->|HP], HQ as [->|HQ]; [reflexivity| | |eauto].
  - exfalso. apply N. rewrite E. apply in_map, HQ.
  - exfalso. apply N. rewrite <- E. apply in_map, HP.
Qed.

(* what the fate of a partition depends on *)
Lemma fate_mono : forall s s' p,
  virt s' p = virt s p -> e_todo s' = e_todo s ->
  (forall k, up s k -> up s' k \/ (In k (e_changed s') /\ In (k, SOffline) (e_spus s'))) ->
  (forall k, up s' k -> up s k \/ In k (e_changed s')) ->
  (forall k st, In k (e_changed s) -> In (k, st) (e_spus s) -> In k (e_changed s')) ->
  (forall k, In (k, SOffline) (e_spus s) -> up s' k \/ In (k, SOffline) (e_spus s')) ->
  ((forall k, up s' k -> up s k) \/ st_res (pt_status (virt s p)) <> POutOfStorage) ->
  fate s p -> fate s' p.
Proof.
  intros s s' p EV ET U U' C D NF F. destruct F as [F|F1 F2|F|F1 F2 F3|F1 F2 F3].
  - rewrite <- EV in F. destruct (U _ F) as [G|[G1 G2]]; [apply f_led, G|apply f_changed; assumption].
  - rewrite <- EV in F1, F2. destruct (D _ F2) as [G|G]; [apply f_led, G|apply f_changed; [eapply C; eassumption|exact G]].
  - apply f_todo. rewrite ET. exact F.
  - apply f_nobody; rewrite EV, ?ET; auto. intros r HI HU L. destruct (U' _ HU) as [G|G]; [|left; exact G].
    destruct (F3 r HI G L) as [G'|G']; [left; eapply C; [exact G'|exact G]|right; exact G'].
  - destruct NF as [NF|NF]; [|contradiction]. apply f_full; rewrite ?EV, ?ET; auto.
    intros (r & HI & HU & L). apply F3. exists r. auto.
Qed.

Lemma after_mid : forall q x c p, key_of x <> pt_key p -> after_all ((q ++ [x]) ++ c) p = after_all (q ++ c) p.
Proof.
  intros q x c p N. rewrite !after_app. f_equal. cbn. apply apply_other. rewrite after_key. exact N.
Qed.
Lemma after_only : forall q x c p, Forall (fun a => key_of a <> pt_key p) (c ++ q) ->
  after_all ((q ++ [x]) ++ c) p = apply_action x p.
Proof.
  intros q x c p F. apply Forall_app in F as [F1 F2]. rewrite !after_app. rewrite (after_other q) by exact F2. cbn.
  apply after_other. rewrite apply_key. exact F1.
Qed.

(* an action that the leader of [p] caused *)
Lemma set_inv : forall s k st p, undisturbed s k -> by_leader s k -> In p (e_parts s) -> part_inv s p ->
  part_inv (mkE (e_spus s) (e_changed s) (e_todo s) (e_acc s) (e_queue s ++ [UpdateStatus k st]) (e_parts s)) p.
Proof.
  intros s k st p [T NA] BL HI [PF PV PT]. split; cbn.
  - exact PF.
  - congruence.
  - destruct (Z.eq_dec (pt_key p) k) as [E|NE].
    + apply f_led. unfold virt. cbn. rewrite after_only.
      * unfold lead, up. cbn. rewrite E, Z.eqb_refl. cbn. apply BL; assumption.
      * subst k. apply no_about, NA.
    + eapply fate_mono; [| | | | | | |exact PT]; cbn; auto.
      unfold virt. cbn. apply after_mid. cbn. congruence.
Qed.

Lemma on_none : forall k p, is_readable (pt_status p) = true -> elect_on k p = [].
Proof. intros k p E. unfold elect_on. rewrite E. reflexivity. Qed.
Lemma on_self : forall k p, is_readable (pt_status p) = false -> lead p = k ->
  elect_on k p = [UpdateStatus (pt_key p) (set_resolution (pt_status p) POnline)].
Proof.
  intros k p E L. unfold elect_on. rewrite E. unfold lead in L. rewrite L, Z.eqb_refl. reflexivity.
Qed.
Lemma after_repeat : forall (l : list rstatus) (f : rstatus -> bool) k sp v, pt_key v = k ->
  let acts := flat_map (fun r => if f r then [UpdateSpec k sp] else []) l in
  (acts = [] /\ forall r, In r l -> f r = false) \/
  after_all acts v = {| pt_key := k; pt_spec := sp; pt_status := pt_status v |}.
Proof.
  induction l as [|r l IH]; intros f k sp v EK; cbn; [left; split; [reflexivity|contradiction]|].
  destruct (f r) eqn:F.
  - right. cbn. rewrite EK, Z.eqb_refl.
    destruct (IH f k sp {| pt_key := k; pt_spec := sp; pt_status := pt_status v |} eq_refl) as [[E _]|E].
    + cbn in E. unfold after_all. cbn. rewrite E. reflexivity.
    + cbn in E. exact E.
  - destruct (IH f k sp v EK) as [[E N]|E]; [left|right; exact E]. split; [exact E|].
    intros r' [<-|HI]; auto.
Qed.
Lemma on_other : forall k p v, sane (pt_status p) -> is_readable (pt_status p) = false -> lead p <> k -> pt_key v = pt_key p ->
  (elect_on k p = [] /\ forall r, In r (st_replicas (pt_status p)) -> r_spu r = k -> ~ lag (st_leader (pt_status p)) r < 4) \/
  after_all (elect_on k p) v = {| pt_key := pt_key p; pt_spec := set_leader (pt_spec p) k; pt_status := pt_status v |}.
Proof.
  intros k p v S E L EK. unfold elect_on. rewrite E. unfold lead in L. apply Z.eqb_neq in L. rewrite L.
  destruct (after_repeat (st_replicas (pt_status p))
    (fun r => (r_spu r =? k) && match leader_score r (st_leader (pt_status p)) with Some _ => true | None => false end)
    (pt_key p) (set_leader (pt_spec p) k) v EK) as [[G N]|G]; [left|right; exact G].
  split; [exact G|]. intros r HI SP LG. specialize (N r HI). destruct S as [SL SR]. rewrite Forall_forall in SR.
  rewrite SP, Z.eqb_refl in N. cbn in N. rewrite (score_spec _ r SL (SR r HI)) in N.
  destruct (lag (st_leader (pt_status p)) r <? 4) eqn:LT; [discriminate|]. apply Z.ltb_ge in LT. lia.
Qed.

Lemma off_other : forall online k p, lead p <> k -> elect_off online k p = [].
Proof. intros online k p L. unfold elect_off, lead in *. apply Z.eqb_neq in L. rewrite L. reflexivity. Qed.

Lemma elect_virt : forall s e t p, base s -> In p (e_parts s) ->
  virt (mkE (e_spus s) (e_changed s) t (e_acc s ++ elect_for (online_of (e_spus s)) e (e_parts s)) (e_queue s) (e_parts s)) p =
  after_all (one_for (online_of (e_spus s)) e p) (virt s p).
Proof.
  intros s e t p [BI BK BS BA] HI. unfold virt at 1. cbn. rewrite app_assoc, after_app. fold (virt s p).
  rewrite elect_for_flat. apply after_flat; [apply one_key|exact BK|exact HI|apply after_key].
Qed.

Ltac ev H := cbn [fst snd after_all fold_left apply_action] in H.

Lemma elect_part : forall s e t p, pass_inv s -> e_todo s = e :: t -> In p (e_parts s) -> part_inv s p ->
  part_inv (mkE (e_spus s) (e_changed s) t (e_acc s ++ elect_for (online_of (e_spus s)) e (e_parts s)) (e_queue s) (e_parts s)) p.
Proof.
  intros s [k st] t p [IB IQ IO IS IT] ET HI [PF PV PT].
  assert (EQ : e_queue s = []) by (apply IQ; rewrite ET; discriminate).
  destruct PV as [PV1 PV2]; [rewrite ET; discriminate|].
  assert (SP : sane (pt_status p)) by (destruct IB as [_ _ BS _]; rewrite Forall_forall in BS; apply BS, HI).
  set (s' := mkE _ _ _ _ _ _).
  assert (EV : virt s' p = after_all (one_for (online_of (e_spus s)) (k, st) p) (virt s p)) by (apply elect_virt; assumption).
  assert (ND : forall x, In (k, x) t -> False).
  { intros x HX. rewrite ET in IO. cbn in IO. inversion IO as [|y z N D]; subst. apply N.
    change k with (fst (k, x)). apply in_map, HX. }
  rewrite ET in *. destruct st.
  - exfalso. eapply sorted_init, IS.
  - (* a server that is online *)
    assert (NOFF : forall x, In (x, SOffline) t -> False).
    { intros x HX. eapply sorted_on; [exact IS|right; exact HX]. }
    unfold one_for in EV. cbn [fst snd] in EV.
    assert (KU : up s k \/ (In k (e_changed s) /\ In (k, SOffline) (e_spus s))).
    { destruct (IT k SOnline) as [G|[G [b G2]]]; [left; reflexivity|left; exact G|].
      destruct b; [left; exact G2|right; split; assumption]. }
    assert (NTODO : ~ In (lead p, SOffline) ((k, SOnline) :: t)).
    { intros [E|E]; [discriminate|]. eapply NOFF, E. }
    (* the view of the status *)
    assert (VIEW : st_leader (pt_status (virt s' p)) = st_leader (pt_status p) /\
                   st_replicas (pt_status (virt s' p)) = st_replicas (pt_status p)).
    { rewrite EV. destruct (is_readable (pt_status p)) eqn:ER.
      - rewrite on_none by exact ER. split; assumption.
      - destruct (Z.eq_dec (lead p) k) as [EL|NL].
        + rewrite on_self by assumption. cbn. unfold virt. rewrite after_key, Z.eqb_refl. cbn. split; reflexivity.
        + destruct (on_other k p (virt s p) SP ER NL (after_key _ _)) as [[G _]|G]; rewrite G; cbn; split; assumption. }
    split; [intros HX; exfalso; eapply NOFF, HX|intros _; exact VIEW|].
    destruct (is_readable (pt_status p)) eqn:ER.
    + (* nothing to do *)
      rewrite on_none in EV by exact ER. ev EV.
      destruct PT as [F|F1 F2|F|F1 F2 F3|F1 F2 F3].
      * apply f_led. rewrite EV. exact F.
      * apply f_changed; rewrite EV; assumption.
      * rewrite ET in F. contradiction.
      * apply f_nobody; rewrite EV; auto.
        -- intros _. apply F2. rewrite ET. discriminate.
        -- intros r R1 R2 R3. destruct (F3 r R1 R2 R3) as [G|[G _]]; [left; exact G|]. congruence.
      * apply f_full; rewrite ?EV; auto.
    + destruct (Z.eq_dec (lead p) k) as [EL|NL].
      * (* the leader is back *)
        rewrite on_self in EV by assumption. ev EV. unfold virt in EV at 2. rewrite after_key, Z.eqb_refl in EV.
        fold (virt s p) in EV.
        assert (LV : lead (virt s' p) = lead (virt s p)) by (rewrite EV; reflexivity).
        assert (G : lead (virt s p) = k -> fate s' p).
        { intros E. destruct KU as [KU|[K1 K2]].
          - apply f_led. rewrite LV, E. exact KU.
          - apply f_changed; rewrite LV, E; assumption. }
        destruct PT as [F|F1 F2|F|F1 F2 F3|F1 F2 F3].
        -- apply f_led. rewrite LV. exact F.
        -- apply f_changed; rewrite LV; assumption.
        -- rewrite ET in F. contradiction.
        -- apply G. rewrite F2; [exact EL|]. rewrite ET. discriminate.
        -- exfalso. rewrite F2 in ER; [discriminate|]. rewrite ET. discriminate.
      * destruct (on_other k p (virt s p) SP ER NL (after_key _ _)) as [[G N]|G].
        -- (* not suited *)
           rewrite G in EV. ev EV.
           destruct PT as [F|F1 F2|F|F1 F2 F3|F1 F2 F3].
           ++ apply f_led. rewrite EV. exact F.
           ++ apply f_changed; rewrite EV; assumption.
           ++ rewrite ET in F. contradiction.
           ++ apply f_nobody; rewrite EV; auto.
              ** intros _. apply F2. rewrite ET. discriminate.
              ** intros r R1 R2 R3. destruct (F3 r R1 R2 R3) as [G'|[G1 G2]]; [left; exact G'|].
                 rewrite ET in G2. destruct G2 as [G2|G2]; [|right; split; [exact ER|exact G2]].
                 exfalso. injection G2 as G2. rewrite PV1 in R3. rewrite PV2 in R1. exact (N r R1 (eq_sym G2) R3).
           ++ apply f_full; rewrite ?EV; auto. intros _. apply F2. rewrite ET. discriminate.
        -- (* elected *)
           rewrite G in EV.
           assert (LV : lead (virt s' p) = k) by (rewrite EV; reflexivity).
           destruct KU as [KU|[K1 K2]]; [apply f_led|apply f_changed]; rewrite LV; assumption.
  - (* a server that is offline *)
    unfold one_for in EV. cbn [fst snd] in EV.
    destruct (Z.eq_dec (lead p) k) as [EL|NL].
    + assert (VP : virt s p = p).
      { unfold virt. rewrite EQ. cbn. apply after_other, PF. rewrite EL. left. reflexivity. }
      rewrite VP in EV. unfold elect_off in EV. unfold lead in EL. rewrite EL, Z.eqb_refl in EV.
      pose proof (not_elected (online_of (e_spus s)) _ SP) as NE.
      pose proof (elected (online_of (e_spus s)) (pt_status p)) as YE.
      assert (NT : ~ In (lead p, SOffline) t).
      { unfold lead. rewrite EL. intros HX. exact (ND _ HX). }
      destruct (candidate_leader (online_of (e_spus s)) (pt_status p)) as [c|].
      * ev EV. rewrite Z.eqb_refl in EV.
        destruct (YE c SP eq_refl) as (r & (R1 & R2 & R3) & R4 & _).
        split; [intros HX; exfalso; exact (NT HX)| |].
        -- intros _. rewrite EV. cbn. split; reflexivity.
        -- apply f_led. rewrite EV. unfold lead. cbn. apply online_up in R2. rewrite R4 in R2. exact R2.
      * assert (NOBODY : forall r, In r (st_replicas (pt_status p)) -> up s (r_spu r) -> lag (st_leader (pt_status p)) r < 4 -> False).
        { intros r R1 R2 R3. destruct NE as [NE _]. apply (NE eq_refl r). split; [exact R1|].
          split; [apply online_up, R2|exact R3]. }
        destruct (is_online (pt_status p)) eqn:EO.
        -- ev EV. rewrite Z.eqb_refl in EV.
           split; [intros HX; exfalso; exact (NT HX)| |].
           ++ intros _. rewrite EV. cbn. split; reflexivity.
           ++ apply f_nobody; rewrite EV; cbn; auto. intros r R1 R2 R3. exfalso. eapply NOBODY; eassumption.
        -- ev EV.
           split; [intros HX; exfalso; exact (NT HX)| |].
           ++ intros _. rewrite EV. cbn. split; reflexivity.
           ++ destruct (is_readable (pt_status p)) eqn:ER.
              ** apply f_full; rewrite ?EV; auto.
                 --- unfold is_readable, is_online in *. destruct (st_res (pt_status p)); try discriminate; reflexivity.
                 --- intros (r & R1 & R2 & R3). eapply NOBODY; eassumption.
              ** apply f_nobody; rewrite EV; auto. intros r R1 R2 R3. exfalso. eapply NOBODY; eassumption.
    + rewrite off_other in EV by exact NL. ev EV.
      split.
      * unfold s'; cbn [e_acc e_todo]. intros HX. apply Forall_app. split; [apply PF; right; exact HX|].
        rewrite elect_for_flat. apply Forall_forall. intros a HA. apply in_flat_map in HA as (q & HQ & HA).
        rewrite (one_key _ _ _ _ HA). intros E. assert (q = p) by (eapply same_part; [apply IB|exact HQ|exact HI|exact E]).
        subst q. unfold one_for in HA; cbn in HA. rewrite off_other in HA by exact NL. destruct HA.
      * intros _. rewrite EV. split; assumption.
      * destruct PT as [F|F1 F2|F|F1 F2 F3|F1 F2 F3].
        -- apply f_led. rewrite EV. exact F.
        -- apply f_changed; rewrite EV; assumption.
        -- apply f_todo. rewrite ET in F. destruct F as [F|F]; [|exact F]. exfalso. apply NL. congruence.
        -- apply f_nobody; rewrite EV; auto.
           ++ intros _. apply F2. rewrite ET. discriminate.
           ++ intros r R1 R2 R3. destruct (F3 r R1 R2 R3) as [G|[G1 G2]]; [left; exact G|right].
              split; [exact G1|]. rewrite ET in G2. destruct G2 as [G2|G2]; [discriminate|exact G2].
        -- apply f_full; rewrite ?EV; auto. intros _. apply F2. rewrite ET. discriminate.
Qed.

Lemma part_step : forall s a s' p p', pass_inv s -> fine s a -> estep s a = Some s' ->
  internal a \/ st_res (pt_status (virt s p)) <> POutOfStorage ->
  In p (e_parts s) -> part_inv s p -> In p' (e_parts s') -> pt_key p' = pt_key p -> part_inv s' p'.
Proof.
  intros s a s' p p' PI [PL FI] H NF HP [PF PV PT] HP' EK.
  pose proof PI as [IB IQ IO IS IT].
  assert (SAME : e_parts s' = e_parts s -> p' = p).
  { intros E. rewrite E in HP'. eapply same_part; [apply IB|exact HP'|exact HP|exact EK]. }
  destruct a; try contradiction; cbn in H.
  - destruct (known k (e_spus s)) eqn:EKN; [discriminate|]. injection H as <-. rewrite (SAME eq_refl).
    split; cbn; [exact PF|exact PV|].
    eapply fate_mono; [| | | | | | |exact PT]; cbn; auto; unfold up; cbn.
    + intros x HX. left. apply in_or_app. left. exact HX.
    + intros x HX. apply in_app_or in HX as [HX|[HX|[]]]; [left; exact HX|discriminate].
    + intros x HX. right. apply in_or_app. left. exact HX.
    + left. intros x HX. apply in_app_or in HX as [HX|[HX|[]]]; [exact HX|discriminate].
  - destruct (find_spu k (e_spus s)) as [st|] eqn:E; [|discriminate]. apply find_spu_in in E.
    destruct (status_eqb st (as_status up)) eqn:ES; injection H as <-.
    { rewrite (SAME eq_refl). split; assumption. }
    rewrite (SAME eq_refl). split; cbn; [exact PF|exact PV|].
    eapply fate_mono; [| | | | | | |exact PT]; cbn; auto; unfold ElectSpec.up; cbn.
    + intros x HX. destruct (Z.eq_dec x k) as [->|NE].
      * pose proof (fst_unique _ _ _ _ (b_ids _ IB) E HX). subst st.
        destruct up; [discriminate|]. right. split; [left; reflexivity|]. eapply in_set_new, E.
      * left. apply in_set; assumption.
    + intros x HX. apply set_in in HX as [[-> _]|[_ HX]]; [right; left; reflexivity|left; exact HX].
    + intros x HX. destruct (Z.eq_dec x k) as [->|NE].
      * destruct up; [left|right]; eapply in_set_new, E.
      * right. apply in_set; assumption.
    + right. destruct NF as [[]|NF]. exact NF.
  - destruct (find_part k (e_parts s)) eqn:E; [discriminate|]. injection H as <-. cbn in HP'.
    apply in_app_or in HP' as [HP'|[<-|[]]].
    + assert (p' = p) by (eapply same_part; [apply IB|exact HP'|exact HP|exact EK]). subst p'.
      split; cbn; [exact PF|exact PV|]. eapply fate_mono; [| | | | | | |exact PT]; cbn; auto.
    + exfalso. cbn in EK. apply (find_part_none _ _ E). rewrite EK. apply in_map, HP.
  - destruct (find_part k (e_parts s)) as [q|] eqn:E; [|discriminate]. injection H as <-. rewrite (SAME eq_refl).
    destruct FI as [F1 F2]. apply set_inv; try assumption. split; assumption.
  - destruct (find_part k (e_parts s)) as [q|] eqn:E; [|discriminate]. injection H as <-. rewrite (SAME eq_refl).
    destruct FI as [F1 F2]. apply set_inv; try assumption. split; assumption.
  - destruct (e_todo s) eqn:ET; [|discriminate]. destruct (e_acc s) eqn:EA; [|discriminate].
    destruct (order_of order (changed_now s)) eqn:EO; [|discriminate]. injection H as <-. rewrite (SAME eq_refl).
    assert (EV : forall c t, virt (mkE (e_spus s) c t [] (e_queue s) (e_parts s)) p = virt s p).
    { intros c t. unfold virt. cbn. rewrite EA. reflexivity. }
    destruct (e_changed s) as [|c0 cs] eqn:EC.
    + (* nothing has changed *)
      rewrite (order_nil _ _ EO EC). cbn. split; cbn; [contradiction|congruence|].
      eapply fate_mono; [| | | | | | |exact PT]; cbn; auto.
      rewrite EC. contradiction.
    + assert (EQ : e_queue s = []) by (destruct FI as [Q|C]; [exact Q|discriminate]).
      assert (VP : virt s p = p) by (unfold virt; rewrite EQ, EA; reflexivity).
      destruct (order_in _ _ EO) as [ND IN].
      assert (TODO : forall k st, In k (e_changed s) -> In (k, st) (e_spus s) -> st <> SInit -> In (k, st) (in_turn order)).
      { intros k st C1 C2 N. apply in_turn_in. split; [|exact N]. apply IN, in_changed_now. auto. }
      split; cbn.
      * constructor.
      * intros _. rewrite EV, VP. split; reflexivity.
      * destruct PT as [F|F1 F2|F|F1 F2 F3|F1 F2 F3].
        -- apply f_led. rewrite EV. exact F.
        -- apply f_todo. cbn. rewrite VP in F1, F2. apply TODO; [exact F1|exact F2|discriminate].
        -- rewrite ET in F. destruct F.
        -- apply f_nobody; rewrite EV.
           ++ exact F1.
           ++ intros _. rewrite VP. reflexivity.
           ++ intros r R1 R2 R3. right. destruct (F3 r R1 R2 R3) as [G|[_ G]]; [|rewrite ET in G; destruct G].
              rewrite VP in F1. split; [exact F1|]. cbn. apply TODO; [exact G|exact R2|discriminate].
        -- apply f_full; rewrite ?EV; auto. intros _. rewrite VP in F1. unfold is_readable. rewrite F1. reflexivity.
  - destruct (e_todo s) as [|e t] eqn:ET; [discriminate|]. injection H as <-. rewrite (SAME eq_refl).
    apply elect_part; try assumption. rewrite <- ET in PF, PV. split; assumption.
  - destruct (e_todo s) eqn:ET; [|discriminate]. destruct (e_acc s) as [|x t] eqn:EA; [discriminate|]. injection H as <-.
    rewrite (SAME eq_refl). split; cbn; [contradiction|congruence|].
    eapply fate_mono; [| | | | | | |exact PT]; cbn; auto.
    unfold virt. cbn. rewrite EA, <- app_assoc. reflexivity.
  - destruct (e_queue s) as [|x t] eqn:EQ; [discriminate|]. injection H as <-. cbn in HP'.
    assert (ET : e_todo s = []).
    { destruct (e_todo s) eqn:ET; [reflexivity|]. exfalso. specialize (IQ ltac:(discriminate)). discriminate. }
    apply in_map_iff in HP' as (q & <- & HQ). rewrite apply_key in EK.
    assert (q = p) by (eapply same_part; [apply IB|exact HQ|exact HP|exact EK]). subst q.
    assert (EV : virt (mkE (e_spus s) (e_changed s) (e_todo s) (e_acc s) t (map (apply_action x) (e_parts s))) (apply_action x p) = virt s p).
    { unfold virt. cbn. rewrite EQ. reflexivity. }
    split; cbn; [rewrite ET; contradiction|rewrite ET; congruence|].
    destruct PT as [F|F1 F2|F|F1 F2 F3|F1 F2 F3].
    + apply f_led. rewrite EV. exact F.
    + apply f_changed; rewrite EV; assumption.
    + rewrite ET in F. destruct F.
    + apply f_nobody; rewrite EV; auto; cbn; rewrite ET; [congruence|].
      intros r R1 R2 R3. destruct (F3 r R1 R2 R3) as [G|[_ G]]; [left; exact G|]. rewrite ET in G. destruct G.
    + apply f_full; rewrite ?EV; auto; cbn; rewrite ET; congruence.
  - injection H as <-. rewrite (SAME eq_refl). split; cbn; [exact PF|exact PV|].
    eapply fate_mono; [| | | | | | |exact PT]; cbn; auto.
    intros k st _ G. change k with (fst (k, st)). apply in_map, G.
Qed.

(** ** Prompt runs *)

Definition not_full (st : pstatus) : Prop := st_res st <> POutOfStorage.
Record calm (s : elects) : Prop := {
  c_parts : Forall (fun p => not_full (pt_status p)) (e_parts s);
  c_acts : Forall (fun a => match a with UpdateStatus _ st => not_full st | _ => True end) (e_queue s ++ e_acc s);
  c_keys : Forall (fun a => In (key_of a) (map pt_key (e_parts s))) (e_queue s ++ e_acc s) }.

Lemma apply_full : forall a p, match a with UpdateStatus _ st => not_full st | _ => True end ->
  not_full (pt_status p) -> not_full (pt_status (apply_action a p)).
Proof. intros [k sp|k st] p H1 H2; cbn; destruct (pt_key p =? k); assumption. Qed.
Lemma calm_virt : forall s p, calm s -> In p (e_parts s) -> not_full (pt_status (virt s p)).
Proof.
  intros s p [CP CA _] HI. rewrite Forall_forall in CP. specialize (CP _ HI). unfold virt.
  revert p HI CP. induction (e_queue s ++ e_acc s) as [|a l IH]; intros p HI CP; [exact CP|].
  inversion CA as [|x y CX CL]; subst. cbn.
  assert (G : forall q, not_full (pt_status q) -> not_full (pt_status (after_all l q))).
  { clear - CL. induction l as [|b l IH]; intros q Q; [exact Q|]. inversion CL; subst. cbn. apply IH; [assumption|].
    apply apply_full; assumption. }
  apply G. apply apply_full; assumption.
Qed.
Lemma one_full : forall online e p a, In a (one_for online e p) -> match a with UpdateStatus _ st => not_full st | _ => True end.
Proof.
  intros online [k st] p a H. unfold one_for in H; cbn in H. destruct st; [destruct H| |].
  - unfold elect_on in H. destruct (is_readable (pt_status p)); [destruct H|].
    destruct (ps_leader (pt_spec p) =? k); [destruct H as [<-|[]]; cbn; discriminate|].
    apply in_flat_map in H as (r & _ & H). match type of H with In _ (if ?b then _ else _) => destruct b end; [|destruct H].
    destruct H as [<-|[]]. exact I.
  - unfold elect_off in H. destruct (ps_leader (pt_spec p) =? k); [|destruct H].
    destruct (candidate_leader online (pt_status p)); [destruct H as [<-|[]]; exact I|].
    destruct (is_online (pt_status p)); [|destruct H]. destruct H as [<-|[]]; cbn; discriminate.
Qed.

Lemma calm_step : forall s a s', calm s -> prompt s a -> estep s a = Some s' -> calm s'.
Proof.
  intros s a s' [CP CA CK] [PL FI] H. destruct a; try contradiction; cbn in H.
  - destruct (known k (e_spus s)); [discriminate|]. injection H as <-. split; cbn; assumption.
  - destruct (find_spu k (e_spus s)) as [st|]; [|discriminate].
    destruct (status_eqb st (as_status up)); injection H as <-; split; cbn; assumption.
  - destruct (find_part k (e_parts s)); [discriminate|]. injection H as <-. split; cbn; try assumption.
    + apply Forall_app. split; [exact CP|]. constructor; [|constructor]. cbn. discriminate.
    + eapply Forall_impl; [|exact CK]. cbn. intros a HA. rewrite map_app. apply in_or_app. left. exact HA.
  - destruct (find_part k (e_parts s)) as [p|] eqn:E; [|discriminate]. injection H as <-.
    apply find_part_in in E as [HI EK]. apply Forall_app in CA as [A1 A2], CK as [K1 K2].
    split; cbn [e_parts e_queue e_acc]; try assumption; rewrite <- app_assoc; (apply Forall_app; split; [assumption|]; constructor; [|assumption]).
    + unfold ps_merge. destruct (rs_merge _ _) as [l9 o9]. cbn. discriminate.
    + cbn. rewrite <- EK. apply in_map, HI.
  - destruct (find_part k (e_parts s)) as [p|] eqn:E; [|discriminate]. injection H as <-. destruct FI as (_ & _ & NF).
    apply find_part_in in E as [HI EK]. apply Forall_app in CA as [A1 A2], CK as [K1 K2].
    split; cbn [e_parts e_queue e_acc]; try assumption; rewrite <- app_assoc; (apply Forall_app; split; [assumption|]; constructor; [|assumption]).
    + exact NF.
    + cbn. rewrite <- EK. apply in_map, HI.
  - destruct (e_todo s); [|discriminate]. destruct (e_acc s) eqn:EA; [|discriminate].
    destruct (order_of order (changed_now s)); [|discriminate]. injection H as <-. split; cbn; assumption.
  - destruct (e_todo s) as [|e t]; [discriminate|]. injection H as <-.
    split; cbn [e_parts e_queue e_acc]; try assumption; rewrite app_assoc; (apply Forall_app; split; [assumption|]);
      rewrite elect_for_flat; apply Forall_forall; intros a HA; apply in_flat_map in HA as (q & HQ & HA).
    + eapply one_full, HA.
    + rewrite (one_key _ _ _ _ HA). apply in_map, HQ.
  - destruct (e_todo s); [|discriminate]. destruct (e_acc s) as [|x t] eqn:EA; [discriminate|]. injection H as <-.
    split; cbn [e_parts e_queue e_acc]; try assumption; rewrite <- app_assoc; assumption.
  - destruct (e_queue s) as [|x t] eqn:EQ; [discriminate|]. injection H as <-.
    inversion CA; subst. inversion CK; subst. split; cbn [e_parts e_queue e_acc].
    + apply Forall_forall. intros p HI. apply in_map_iff in HI as (q & <- & HI). rewrite Forall_forall in CP.
      apply apply_full; [assumption|]. apply CP, HI.
    + assumption.
    + rewrite map_map. rewrite (map_ext _ pt_key (apply_key x)). assumption.
  - injection H as <-. split; cbn; assumption.
Qed.

Lemma prompt_fine : forall s a, prompt s a -> fine s a.
Proof. intros s a [PL H]. split; [exact PL|]. destruct a; try exact H; [destruct H as (H1 & H2 & _); auto|left; exact H]. Qed.

Record prompt_inv (s : elects) : Prop := {
  pi_pass : pass_inv s;
  pi_calm : calm s;
  pi_parts : forall p, In p (e_parts s) -> part_inv s p }.

Lemma step_source : forall s a s' p', estep s a = Some s' -> In p' (e_parts s') ->
  (exists p, In p (e_parts s) /\ pt_key p = pt_key p') \/
  (exists sp, p' = {| pt_key := pt_key p'; pt_spec := sp; pt_status := new_status |} /\
     ~ In (pt_key p') (map pt_key (e_parts s)) /\ e_parts s' = e_parts s ++ [p'] /\
     e_todo s' = e_todo s /\ e_acc s' = e_acc s /\ e_queue s' = e_queue s).
Proof.
  intros s a s' p' H HI. destruct a; cbn in H.
  - destruct (known k (e_spus s)); [discriminate|]. injection H as <-. left; eauto.
  - injection H as <-. left; eauto.
  - destruct (find_spu k (e_spus s)) as [st|]; [|discriminate].
    destruct (status_eqb st (as_status up)); injection H as <-; left; eauto.
  - destruct (find_part k (e_parts s)) eqn:E; [discriminate|]. injection H as <-. cbn in *.
    apply in_app_or in HI as [HI|[<-|[]]]; [left; eauto|right]. exists sp. cbn. repeat split; auto.
    apply find_part_none, E.
  - destruct (find_part k (e_parts s)); [|discriminate]. injection H as <-. left; eauto.
  - destruct (find_part k (e_parts s)); [|discriminate]. injection H as <-. left; eauto.
  - destruct (e_todo s); [|discriminate]. destruct (e_acc s); [|discriminate].
    destruct (order_of order (changed_now s)); [|discriminate]. injection H as <-. left; eauto.
  - destruct (e_todo s); [discriminate|]. injection H as <-. left; eauto.
  - destruct (e_todo s); [|discriminate]. destruct (e_acc s); [discriminate|]. injection H as <-. left; eauto.
  - destruct (e_queue s) as [|x t]; [discriminate|]. injection H as <-. cbn in HI.
    apply in_map_iff in HI as (q & <- & HI). left. exists q. rewrite apply_key. auto.
  - injection H as <-. left; eauto.
  - injection H as <-. left; eauto.
Qed.

Lemma prompt_step : forall s a s', prompt_inv s -> prompt s a -> estep s a = Some s' -> prompt_inv s'.
Proof.
  intros s a s' [PP PC PS] PR H. pose proof (prompt_fine _ _ PR) as FI.
  split; [eapply pass_step; eassumption|eapply calm_step; eassumption|].
  intros p' HI. destruct (step_source _ _ _ _ H HI) as [(p & HP & EK)|(sp & EP & NEW & EPS & ET & EA & EQ)].
  - eapply part_step; [exact PP|exact FI|exact H| |exact HP|exact (PS _ HP)|exact HI|symmetry; exact EK].
    right. apply calm_virt; assumption.
  - assert (OTHER : Forall (fun a => key_of a <> pt_key p') (e_queue s ++ e_acc s)).
    { destruct PC as [_ _ CK]. eapply Forall_impl; [|exact CK]. cbn. intros x HX E. apply NEW. rewrite <- E. exact HX. }
    assert (VP : virt s' p' = p') by (unfold virt; rewrite EQ, EA; apply after_other, OTHER).
    split.
    + rewrite EA. intros _. apply Forall_app in OTHER as [_ O]. exact O.
    + intros _. rewrite VP. auto.
    + apply f_nobody; rewrite VP; [rewrite EP; reflexivity|auto|]. rewrite EP. cbn. contradiction.
Qed.

Lemma prompt_start : prompt_inv no_cluster.
Proof.
  split; [split|split; cbn; constructor|contradiction].
  - exact base_start.
  - intros _. reflexivity.
  - constructor.
  - exact (in_turn_sorted []).
  - contradiction.
Qed.

Lemma prompt_led : forall s p, eruns prompt no_cluster s -> idle s -> In p (e_parts s) ->
  led s p \/ (is_readable (pt_status p) = false /\ ~ could_lead s p).
Proof.
  intros s p R (IC & IT & IA & IQ) HI.
  assert (PI : prompt_inv s).
  { revert s R IC IT IA IQ HI. intros s R _ _ _ _ _. revert s R. apply eruns_inv; [exact prompt_start|].
    intros s a s' J OK ST. eapply prompt_step; eassumption. }
  destruct PI as [PP PC PS]. pose proof (calm_virt _ _ PC HI) as NF. destruct (PS _ HI) as [_ _ PT].
  assert (VP : virt s p = p) by (unfold virt; rewrite IQ, IA; reflexivity).
  destruct PT as [F|F1 F2|F|F1 F2 F3|F1 F2 F3].
  - left. rewrite VP in F. exact F.
  - rewrite IC in F1. destruct F1.
  - rewrite IT in F. destruct F.
  - right. rewrite VP in F1, F3. split; [exact F1|]. intros (r & R1 & R2 & R3).
    destruct (F3 r R1 R2 R3) as [G|[_ G]]; [rewrite IC in G|rewrite IT in G]; destruct G.
  - contradiction.
Qed.

(** ** A re-sync repairs *)

Lemma resync_led : forall s s1 s2 p p' st,
  eruns plausible no_cluster s -> e_todo s = [] -> e_acc s = [] -> e_queue s = [] ->
  estep s EResync = Some s1 -> eruns (fun _ a => internal a) s1 s2 -> idle s2 ->
  In p (e_parts s) -> In (ps_leader (pt_spec p), st) (e_spus s) -> st <> SInit ->
  In p' (e_parts s2) -> pt_key p' = pt_key p ->
  led s2 p' \/ (st_res (pt_status p') <> POnline /\ ~ could_lead s2 p').
Proof.
  intros s s1 s2 p p' st R ET EA EQ ST R2 (IC & IT & IA & IQ) HP HS NI HP' EK.
  pose proof (base_runs _ R) as B. cbn in ST. injection ST as <-.
  set (s1 := mkE _ _ _ _ _ _) in R2.
  set (J := fun s' => pass_inv s' /\ (e_changed s' = [] \/ e_queue s' = []) /\ (e_changed s' <> [] -> e_todo s' = [] /\ e_acc s' = []) /\
              (exists q, In q (e_parts s') /\ pt_key q = pt_key p) /\
              forall q, In q (e_parts s') -> pt_key q = pt_key p -> part_inv s' q).
  assert (J2 : J s2).
  { revert s2 R2 IC IT IA IQ HP'. intros s2 R2 _ _ _ _ _. revert s2 R2. apply eruns_inv.
    - split; [|split; [|split; [|split]]].
      + unfold s1. destruct B as [BI BK BS BA]. split; cbn.
        * split; cbn; assumption.
        * intros _. exact EQ.
        * rewrite ET. constructor.
        * rewrite ET. exact (in_turn_sorted []).
        * rewrite ET. contradiction.
      + right. exact EQ.
      + intros _. split; assumption.
      + exists p. split; [exact HP|reflexivity].
      + intros q HQ EKQ. assert (q = p) by (eapply same_part; [apply B|exact HQ|exact HP|exact EKQ]). subst q.
        assert (VP : virt s1 p = p) by (unfold virt, s1; cbn; rewrite EQ, EA; reflexivity).
        split.
        * unfold s1; cbn. rewrite ET. contradiction.
        * unfold s1; cbn. rewrite ET. congruence.
        * destruct st; [congruence| |].
          -- apply f_led. rewrite VP. exact HS.
          -- apply f_changed; rewrite VP; [|exact HS]. unfold s1; cbn.
             apply (in_map fst) in HS. exact HS.
    - intros sa a sb (JP & JC & JT & JE & JQ) INT ST.
      assert (FI : fine sa a).
      { split; [destruct a; try contradiction; exact I|]. destruct a; try contradiction; try exact I.
        destruct JC as [C|C]; auto. }
      pose proof (pass_step _ _ _ JP FI ST) as JP'.
      assert (JC' : e_changed sb = [] \/ e_queue sb = []).
      { destruct a; try contradiction; cbn in ST.
        - destruct (e_todo sa); [|discriminate]. destruct (e_acc sa); [|discriminate].
          destruct (order_of order (changed_now sa)); [|discriminate]. injection ST as <-. left. reflexivity.
        - destruct (e_todo sa) as [|e t] eqn:E; [discriminate|]. injection ST as <-. cbn. exact JC.
        - destruct (e_todo sa); [|discriminate]. destruct (e_acc sa) as [|x t] eqn:E; [discriminate|]. injection ST as <-. cbn.
          left. destruct (e_changed sa); [reflexivity|]. destruct (JT ltac:(discriminate)). discriminate.
        - destruct (e_queue sa) as [|x t]; [discriminate|]. injection ST as <-. cbn. left.
          destruct JC as [C|C]; [exact C|discriminate]. }
      assert (JT' : e_changed sb <> [] -> e_todo sb = [] /\ e_acc sb = []).
      { destruct a; try contradiction; cbn in ST.
        - destruct (e_todo sa); [|discriminate]. destruct (e_acc sa); [|discriminate].
          destruct (order_of order (changed_now sa)); [|discriminate]. injection ST as <-. cbn. congruence.
        - destruct (e_todo sa) as [|e t] eqn:E; [discriminate|]. injection ST as <-. cbn. intros N.
          destruct (JT N). discriminate.
        - destruct (e_todo sa); [|discriminate]. destruct (e_acc sa) as [|x t] eqn:E; [discriminate|]. injection ST as <-. cbn.
          intros N. destruct (JT N). discriminate.
        - destruct (e_queue sa) as [|x t]; [discriminate|]. injection ST as <-. cbn. exact JT. }
      split; [exact JP'|]. split; [exact JC'|]. split; [exact JT'|].
      destruct JE as (q0 & H0 & E0).
      split.
      + destruct a; try contradiction; cbn in ST.
        * destruct (e_todo sa); [|discriminate]. destruct (e_acc sa); [|discriminate].
          destruct (order_of order (changed_now sa)); [|discriminate]. injection ST as <-. eauto.
        * destruct (e_todo sa); [discriminate|]. injection ST as <-. eauto.
        * destruct (e_todo sa); [|discriminate]. destruct (e_acc sa); [discriminate|]. injection ST as <-. eauto.
        * destruct (e_queue sa) as [|x t]; [discriminate|]. injection ST as <-. exists (apply_action x q0). cbn.
          split; [apply in_map, H0|]. rewrite apply_key. exact E0.
      + intros q HQ EKQ. eapply part_step; [exact JP|exact FI|exact ST|left; exact INT|exact H0|exact (JQ _ H0 E0)|exact HQ|congruence]. }
  destruct J2 as (_ & _ & _ & _ & JQ). destruct (JQ _ HP' EK) as [_ _ PT].
  assert (VP : virt s2 p' = p') by (unfold virt; rewrite IQ, IA; reflexivity).
  destruct PT as [F|F1 F2|F|F1 F2 F3|F1 F2 F3].
  - left. rewrite VP in F. exact F.
  - rewrite IC in F1. destruct F1.
  - rewrite IT in F. destruct F.
  - right. rewrite VP in F1, F3. split.
    + unfold is_readable in F1. intros E. rewrite E in F1. discriminate.
    + intros (r & R1 & R2' & R3). destruct (F3 r R1 R2' R3) as [G|[_ G]]; [rewrite IC in G|rewrite IT in G]; destruct G.
  - right. rewrite VP in F1, F3. split; [rewrite F1; discriminate|exact F3].
Qed.

(** ** An idle state is always near *)

Definition own (s : elects) (a : elect_act) : Prop := internal a /\ prompt s a.

Lemma eruns_trans : forall ok s1 s2 s3, eruns ok s1 s2 -> eruns ok s2 s3 -> eruns ok s1 s3.
Proof. intros ok s1 s2 s3 R1 R2. induction R2; [exact R1|]. eapply eruns_step; eassumption. Qed.
Lemma eruns_one : forall (ok : elects -> elect_act -> Prop) s a s', ok s a -> estep s a = Some s' -> eruns ok s s'.
Proof. intros ok s a s' O S. eapply eruns_step; [apply eruns_start|exact O|exact S]. Qed.

Lemma drain_todo : forall n s, length (e_todo s) = n -> exists s', eruns own s s' /\ e_todo s' = [] /\
  e_changed s' = e_changed s /\ e_queue s' = e_queue s.
Proof.
  induction n as [|n IH]; intros s E.
  - exists s. destruct (e_todo s) eqn:ET; [|discriminate]. repeat split; auto. apply eruns_start.
  - destruct (e_todo s) as [|e t] eqn:ET; [discriminate|].
    destruct (IH (mkE (e_spus s) (e_changed s) t (e_acc s ++ elect_for (online_of (e_spus s)) e (e_parts s)) (e_queue s) (e_parts s)))
      as (s' & R & T & C & Q); [cbn in *; congruence|].
    exists s'. split; [|auto]. eapply eruns_trans; [|exact R].
    eapply (eruns_one _ _ EElect); [split; [exact I|split; exact I]|]. cbn. rewrite ET. reflexivity.
Qed.
Lemma drain_acc : forall n s, length (e_acc s) = n -> e_todo s = [] -> exists s', eruns own s s' /\ e_todo s' = [] /\
  e_acc s' = [] /\ e_changed s' = e_changed s.
Proof.
  induction n as [|n IH]; intros s E T.
  - exists s. destruct (e_acc s) eqn:EA; [|discriminate]. repeat split; auto. apply eruns_start.
  - destruct (e_acc s) as [|x t] eqn:EA; [discriminate|].
    destruct (IH (mkE (e_spus s) (e_changed s) [] t (e_queue s ++ [x]) (e_parts s)))
      as (s' & R & T' & A & C); [cbn in *; congruence|reflexivity|].
    exists s'. split; [|auto]. eapply eruns_trans; [|exact R].
    eapply (eruns_one _ _ ESend); [split; [exact I|split; exact I]|]. cbn. rewrite T, EA. reflexivity.
Qed.
Lemma drain_queue : forall n s, length (e_queue s) = n -> exists s', eruns own s s' /\ e_todo s' = e_todo s /\
  e_acc s' = e_acc s /\ e_changed s' = e_changed s /\ e_queue s' = [].
Proof.
  induction n as [|n IH]; intros s E.
  - exists s. destruct (e_queue s) eqn:EQ; [|discriminate]. repeat split; auto. apply eruns_start.
  - destruct (e_queue s) as [|x t] eqn:EQ; [discriminate|].
    destruct (IH (mkE (e_spus s) (e_changed s) (e_todo s) (e_acc s) t (map (apply_action x) (e_parts s))))
      as (s' & R & T' & A & C & Q); [cbn in *; congruence|].
    exists s'. split; [|auto]. eapply eruns_trans; [|exact R].
    eapply (eruns_one _ _ EApply); [split; [exact I|split; exact I]|]. cbn. rewrite EQ. reflexivity.
Qed.
Lemma drain : forall s, exists s', eruns own s s' /\ e_todo s' = [] /\ e_acc s' = [] /\ e_queue s' = [] /\ e_changed s' = e_changed s.
Proof.
  intros s. destruct (drain_todo _ s eq_refl) as (s1 & R1 & T1 & C1 & _).
  destruct (drain_acc _ s1 eq_refl T1) as (s2 & R2 & T2 & A2 & C2).
  destruct (drain_queue _ s2 eq_refl) as (s3 & R3 & T3 & A3 & C3 & Q3).
  exists s3. split; [eapply eruns_trans; [exact R1|eapply eruns_trans; eassumption]|]. repeat split; congruence.
Qed.

Lemma own_base : forall s s', base s -> eruns own s s' -> base s'.
Proof.
  intros s s' B R. revert s' R. apply eruns_inv; [exact B|]. intros sa a sb J [_ [PL _]] ST. eapply base_step; eassumption.
Qed.

Lemma settles_idle : forall s, eruns plausible no_cluster s -> exists s', eruns own s s' /\ idle s'.
Proof.
  intros s R. destruct (drain s) as (s1 & R1 & T1 & A1 & Q1 & C1).
  pose proof (own_base _ _ (base_runs _ R) R1) as B1.
  destruct (drain (mkE (e_spus s1) [] (in_turn (changed_now s1)) [] (e_queue s1) (e_parts s1))) as (s2 & R2 & T2 & A2 & Q2 & C2).
  exists s2. split; [|repeat split; assumption].
  eapply eruns_trans; [exact R1|]. eapply eruns_trans; [|exact R2].
  eapply (eruns_one _ _ (EStart (changed_now s1))); [split; [exact I|split; [exact I|exact Q1]]|].
  cbn. rewrite T1, A1. rewrite order_refl; [reflexivity|]. apply nodup_filter, B1.
Qed.

(** ** Checking runs *)

Definition sane_b (st : pstatus) : bool :=
  (0 <=? r_leo (st_leader st)) && (r_leo (st_leader st) <? 2 ^ 62) &&
  forallb (fun r => (-1 <=? r_leo r) && (r_leo r <? 2 ^ 62)) (st_replicas st).
Definition plausible_b (a : elect_act) : bool := match a with EReport _ o => sane_b o | _ => true end.
Definition none {A} (l : list A) : bool := match l with [] => true | _ => false end.
Definition undisturbed_b (s : elects) (k : Z) : bool :=
  none (e_todo s) && forallb (fun a => negb (key_of a =? k)) (e_acc s ++ e_queue s).
Definition by_leader_b (s : elects) (k : Z) : bool :=
  forallb (fun p => negb (pt_key p =? k) || online_of (e_spus s) (ps_leader (pt_spec p))) (e_parts s).
Definition full_b (r : presolution) : bool := match r with POutOfStorage => true | _ => false end.
Definition prompt_b (s : elects) (a : elect_act) : bool :=
  plausible_b a &&
  match a with
  | EStart _ => none (e_queue s)
  | EReport k o => undisturbed_b s k && by_leader_b s k
  | EResolution k r => undisturbed_b s k && by_leader_b s k && negb (full_b r)
  | EDelete _ | ERestart => false
  | _ => true
  end.

Lemma sane_b_ok : forall st, sane_b st = true -> sane st.
Proof.
  intros st H. unfold sane_b in H. apply andb_true_iff in H as [H H2]. apply andb_true_iff in H as [H0 H1].
  apply Z.leb_le in H0. apply Z.ltb_lt in H1. split; [lia|]. apply Forall_forall. intros r HI.
  rewrite forallb_forall in H2. specialize (H2 _ HI). apply andb_true_iff in H2 as [G1 G2].
  apply Z.leb_le in G1. apply Z.ltb_lt in G2. lia.
Qed.
Lemma plausible_b_ok : forall s a, plausible_b a = true -> plausible s a.
Proof. intros s a H. destruct a; try exact I. apply sane_b_ok, H. Qed.
Lemma none_ok : forall A (l : list A), none l = true -> l = [].
Proof. intros A [|x l] H; [reflexivity|discriminate]. Qed.
Lemma undisturbed_b_ok : forall s k, undisturbed_b s k = true -> undisturbed s k.
Proof.
  intros s k H. unfold undisturbed_b in H. apply andb_true_iff in H as [H1 H2]. split; [apply none_ok, H1|].
  intros E. apply Exists_exists in E as (a & HI & HA). rewrite forallb_forall in H2. specialize (H2 _ HI).
  apply about_key in HA. apply negb_true_iff, Z.eqb_neq in H2. contradiction.
Qed.
Lemma by_leader_b_ok : forall s k, by_leader_b s k = true -> by_leader s k.
Proof.
  intros s k H p HI E. unfold by_leader_b in H. rewrite forallb_forall in H. specialize (H _ HI).
  apply orb_true_iff in H as [H|H]; [apply negb_true_iff, Z.eqb_neq in H; contradiction|]. apply online_up, H.
Qed.
Lemma prompt_b_ok : forall s a, prompt_b s a = true -> prompt s a.
Proof.
  intros s a H. unfold prompt_b in H. apply andb_true_iff in H as [H1 H2]. split; [apply plausible_b_ok, H1|].
  destruct a; try exact I; try discriminate.
  - apply andb_true_iff in H2 as [G1 G2]. split; [apply undisturbed_b_ok, G1|apply by_leader_b_ok, G2].
  - apply andb_true_iff in H2 as [H2 G3]. apply andb_true_iff in H2 as [G1 G2].
    split; [apply undisturbed_b_ok, G1|]. split; [apply by_leader_b_ok, G2|]. intros ->. discriminate.
  - apply none_ok, H2.
Qed.

Fixpoint check (okb : elects -> elect_act -> bool) (s : elects) (l : list elect_act) : option elects :=
  match l with
  | [] => Some s
  | a :: t => if okb s a then match estep s a with Some s' => check okb s' t | None => None end else None
  end.
Lemma check_runs : forall (ok : elects -> elect_act -> Prop) okb, (forall s a, okb s a = true -> ok s a) ->
  forall l s s', check okb s l = Some s' -> eruns ok s s'.
Proof.
  intros ok okb OK l. induction l as [|a l IH]; intros s s' H; cbn in H.
  - injection H as <-. apply eruns_start.
  - destruct (okb s a) eqn:EO; [|discriminate]. destruct (estep s a) as [s1|] eqn:ES; [|discriminate].
    eapply eruns_trans; [|apply IH, H]. eapply eruns_one; [apply OK, EO|exact ES].
Qed.

(** ** What goes wrong otherwise *)

Definition ex_spec : pspec := {| ps_leader := 1; ps_replicas := [1; 2; 3] |}.
Definition ex_at (k o : Z) : rstatus := {| r_spu := k; r_hw := o; r_leo := o |}.
Definition ex_report (k a b : Z) : pstatus :=
  {| st_res := POnline; st_leader := ex_at k 10; st_lsr := 2; st_replicas := [ex_at a 10; ex_at b 10] |}.
(** Three servers, all up; partition 0, led by server 1, has reported. *)
Definition ex_start : list elect_act :=
  [EAdd 1; EAdd 2; EAdd 3; EStatus 1 true; EStatus 2 true; EStatus 3 true; ECreate 0 ex_spec;
   EStart [(1, SOnline); (2, SOnline); (3, SOnline)]; EElect; EElect; EElect; ESend; EApply;
   EReport 0 (ex_report 1 2 3); EApply].

Lemma idle_stays : forall s s', idle s -> eruns (fun _ a => internal a) s s' -> s' = s.
Proof.
  intros s s' (IC & IT & IA & IQ) R. induction R as [|a s1 s2 R IH OK ST]; [reflexivity|]. subst s1.
  destruct a; try contradiction; cbn in ST.
  - rewrite IT, IA in ST. destruct (order_of order (changed_now s)) eqn:EO; [|discriminate].
    rewrite (order_nil _ _ EO IC) in ST. injection ST as <-. destruct s; cbn in *. subst. reflexivity.
  - rewrite IT in ST. discriminate.
  - rewrite IT, IA in ST. discriminate.
  - rewrite IQ in ST. discriminate.
Qed.

Definition neglected_b (s : elects) (p : partition) : bool :=
  negb (online_of (e_spus s) (ps_leader (pt_spec p))) &&
  existsb (fun r => online_of (e_spus s) (r_spu r) && (lag (st_leader (pt_status p)) r <? 4)) (st_replicas (pt_status p)).
Lemma neglected_b_ok : forall s p, In p (e_parts s) -> neglected_b s p = true -> neglected s p.
Proof.
  intros s p HI H. apply andb_true_iff in H as [H1 H2]. split; [exact HI|]. split.
  - intros L. apply online_up in L. rewrite L in H1. discriminate.
  - apply existsb_exists in H2 as (r & HR & H2). apply andb_true_iff in H2 as [G1 G2].
    exists r. split; [exact HR|]. split; [apply online_up, G1|apply Z.ltb_lt, G2].
Qed.

Lemma neglected_one : forall s p, e_parts s = [p] -> neglected_b s p = true -> neglected s p.
Proof. intros s p E H. apply neglected_b_ok; [rewrite E; left; reflexivity|exact H]. Qed.
Definition idle_b (s : elects) : bool := none (e_changed s) && none (e_todo s) && none (e_acc s) && none (e_queue s).
Lemma idle_b_ok : forall s, idle_b s = true -> idle s.
Proof.
  intros s H. apply andb_true_iff in H as [H H4]. apply andb_true_iff in H as [H H3]. apply andb_true_iff in H as [H1 H2].
  split; [|split; [|split]]; apply none_ok; assumption.
Qed.
Definition ex_race : list elect_act := ex_start ++
  [EStatus 1 false; EStart [(1, SOffline)]; EElect; ESend; EStatus 2 false; EStart [(2, SOffline)]; EElect; EApply].
Definition run_of (l : list elect_act) : elects := match eexec no_cluster l with Some s => s | None => no_cluster end.
Definition first (s : elects) : partition := hd {| pt_key := 0; pt_spec := ex_spec; pt_status := new_status |} (e_parts s).

Lemma race_run : eruns race_ok no_cluster (run_of ex_race).
Proof.
  apply (check_runs _ (fun s a => prompt_b s a || match a with EStart _ => true | _ => false end)) with (l := ex_race).
  - intros s a H. apply orb_true_iff in H as [H|H]; [left; apply prompt_b_ok, H|right]. destruct a; try discriminate. eauto.
  - vm_compute. reflexivity.
Qed.
Lemma neglected_race : exists s p, eruns race_ok no_cluster s /\ idle s /\ neglected s p /\ is_online (pt_status p) = true /\
  forall s', eruns (fun _ a => internal a) s s' -> neglected s' p.
Proof.
  exists (run_of ex_race), (first (run_of ex_race)).
  assert (N : neglected (run_of ex_race) (first (run_of ex_race))) by (apply neglected_one; vm_compute; reflexivity).
  assert (D : idle (run_of ex_race)) by (apply idle_b_ok; vm_compute; reflexivity).
  split; [exact race_run|]. split; [exact D|]. split; [exact N|]. split; [vm_compute; reflexivity|].
  intros s' R. rewrite (idle_stays _ _ D R). exact N.
Qed.

Definition ex_storage : list elect_act := ex_start ++
  [EResolution 0 POutOfStorage; EApply; EStatus 2 false; EStatus 3 false; EStart [(2, SOffline); (3, SOffline)]; EElect; EElect;
   EStatus 1 false; EStart [(1, SOffline)]; EElect; EStatus 2 true; EStart [(2, SOnline)]; EElect].
Lemma neglected_storage : exists s p, eruns storage_ok no_cluster s /\ idle s /\ neglected s p /\
  forall s', eruns (fun _ a => internal a) s s' -> neglected s' p.
Proof.
  exists (run_of ex_storage), (first (run_of ex_storage)).
  assert (N : neglected (run_of ex_storage) (first (run_of ex_storage))) by (apply neglected_one; vm_compute; reflexivity).
  assert (D : idle (run_of ex_storage)) by (apply idle_b_ok; vm_compute; reflexivity).
  split; [|split; [exact D|split; [exact N|intros s' R; rewrite (idle_stays _ _ D R); exact N]]].
  apply (check_runs _ (fun s a => prompt_b s a ||
    match a with EResolution k POutOfStorage => undisturbed_b s k && by_leader_b s k | _ => false end)) with (l := ex_storage).
  - intros s a H. apply orb_true_iff in H as [H|H]; [left; apply prompt_b_ok, H|right]. destruct a; try discriminate.
    destruct r; try discriminate. apply andb_true_iff in H as [G1 G2]. exists k. split; [reflexivity|].
    split; [apply undisturbed_b_ok, G1|apply by_leader_b_ok, G2].
  - vm_compute. reflexivity.
Qed.

Definition ex_restart : list elect_act := ex_start ++ [EStatus 1 false; ERestart].
Lemma neglected_restart : exists s p, eruns restart_ok no_cluster s /\ idle s /\ neglected s p /\ is_online (pt_status p) = true /\
  forall s', eruns (fun _ a => internal a) s s' -> neglected s' p.
Proof.
  exists (run_of ex_restart), (first (run_of ex_restart)).
  assert (N : neglected (run_of ex_restart) (first (run_of ex_restart))) by (apply neglected_one; vm_compute; reflexivity).
  assert (D : idle (run_of ex_restart)) by (apply idle_b_ok; vm_compute; reflexivity).
  split; [|split; [exact D|split; [exact N|split; [vm_compute; reflexivity|intros s' R; rewrite (idle_stays _ _ D R); exact N]]]].
  apply (check_runs _ (fun s a => prompt_b s a || match a with ERestart => true | _ => false end)) with (l := ex_restart).
  - intros s a H. apply orb_true_iff in H as [H|H]; [left; apply prompt_b_ok, H|right]. destruct a; try discriminate. reflexivity.
  - vm_compute. reflexivity.
Qed.

Definition ex_deleted : list elect_act := ex_start ++ [EDelete 1].
Lemma neglected_deleted : exists s p, eruns deleted_ok no_cluster s /\ idle s /\ neglected s p /\ is_online (pt_status p) = true /\
  forall s', eruns (fun _ a => internal a \/ a = EResync) s s' -> neglected s' p.
Proof.
  set (s0 := run_of ex_deleted). set (p0 := first s0).
  exists s0, p0.
  assert (N : neglected s0 p0) by (apply neglected_one; vm_compute; reflexivity).
  assert (D : idle s0) by (apply idle_b_ok; vm_compute; reflexivity).
  split; [|split; [exact D|split; [exact N|split; [vm_compute; reflexivity|]]]].
  { apply (check_runs _ (fun s a => prompt_b s a || match a with EDelete _ => true | _ => false end)) with (l := ex_deleted).
    - intros s a H. apply orb_true_iff in H as [H|H]; [left; apply prompt_b_ok, H|right]. destruct a; try discriminate. eauto.
    - vm_compute. reflexivity. }
  set (J := fun s => e_spus s = e_spus s0 /\ e_parts s = [p0] /\ e_acc s = [] /\ e_queue s = [] /\
              Forall (fun e => snd e = SOnline) (e_todo s)).
  assert (G : forall s', eruns (fun _ a => internal a \/ a = EResync) s0 s' -> J s').
  { apply eruns_inv.
    - destruct D as (_ & D2 & D3 & D4). split; [reflexivity|]. split; [vm_compute; reflexivity|].
      split; [exact D3|]. split; [exact D4|]. rewrite D2. constructor.
    - intros s a s' (J1 & J2 & J3 & J4 & J5) [OK| ->] ST.
      + destruct a; try contradiction; cbn in ST.
        * destruct (e_todo s); [|discriminate]. rewrite J3 in ST.
          destruct (order_of order (changed_now s)) eqn:EO; [|discriminate]. injection ST as <-.
          repeat split; auto. cbn. apply Forall_forall. intros [k st] HI. apply in_turn_in in HI as [HI _].
          apply (order_in _ _ EO) in HI. apply in_changed_now in HI as [HI _]. rewrite J1 in HI.
          vm_compute in HI. destruct HI as [HI|[HI|[]]]; injection HI as <- <-; reflexivity.
        * destruct (e_todo s) as [|[k st] t]; [discriminate|]. injection ST as <-. inversion J5 as [|x y E F]; subst.
          cbn in E. subst st. repeat split; auto. cbn [e_acc]. rewrite J3, J2. reflexivity.
        * rewrite J3 in ST. destruct (e_todo s); discriminate.
        * rewrite J4 in ST. discriminate.
      + cbn in ST. injection ST as <-. repeat split; auto. }
  intros s' R. destruct (G _ R) as (J1 & J2 & _). destruct N as (_ & N1 & N2). split; [rewrite J2; left; reflexivity|].
  unfold led, up, could_lead in *. unfold up in *. rewrite J1. split; assumption.
Qed.

(** ** An example *)

(** Servers 1 and 3 go down, and 1 comes back: partition 0 is led by 2; partition 1,
    whose only replica is on 3, waits. *)
Definition ex_good : list elect_act := ex_start ++
  [ECreate 1 {| ps_leader := 3; ps_replicas := [3] |};
   EStatus 1 false; EStatus 3 false; EStart [(3, SOffline); (1, SOffline)]; EElect; EElect; ESend; EApply;
   EReport 0 (ex_report 2 1 3); EApply; EStatus 1 true; EStart [(1, SOnline)]; EElect].
Lemma good_run : eruns prompt no_cluster (run_of ex_good) /\ idle (run_of ex_good) /\
  map (fun p => (pt_key p, ps_leader (pt_spec p), is_readable (pt_status p))) (e_parts (run_of ex_good)) = [(0, 2, true); (1, 3, false)] /\
  e_spus (run_of ex_good) = [(1, SOnline); (2, SOnline); (3, SOffline)].
Proof.
  split; [|split; [apply idle_b_ok; vm_compute; reflexivity|split; vm_compute; reflexivity]].
  apply (check_runs _ prompt_b prompt_b_ok) with (l := ex_good). vm_compute. reflexivity.
Qed.
Definition ex_repair : list elect_act :=
  [EStart [(1, SOffline); (2, SOffline); (3, SOnline)]; EElect; EElect; EElect; ESend; EApply].
Lemma repair_run : exists s1 s2, estep (run_of ex_race) EResync = Some s1 /\
  eruns (fun _ a => internal a) s1 s2 /\ idle s2 /\ map (fun p => ps_leader (pt_spec p)) (e_parts s2) = [3].
Proof.
  eexists _, _. split; [vm_compute; reflexivity|]. split; [|split].
  - apply (check_runs _ (fun _ a => match a with EStart _ | EElect | ESend | EApply => true | _ => false end)) with (l := ex_repair).
    + intros s a H. destruct a; try discriminate; exact I.
    + vm_compute. reflexivity.
  - apply idle_b_ok. vm_compute. reflexivity.
  - vm_compute. reflexivity.
Qed.
