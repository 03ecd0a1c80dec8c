From Verif Require Import Base ControlModel ControlSpec ControlClaims HealthModel ElectModel ElectSpec.
From Coq Require Import Lia.

(** ** Small facts *)

Lemma zmem_in : forall x l, zmem x l = true <-> In x l.
Proof.
  intros x l. unfold zmem. rewrite existsb_exists. split.
  - intros (y & HI & E). apply Z.eqb_eq in E. congruence.
  - intros H. exists x. split; [exact H|apply Z.eqb_refl].
Qed.

Lemma online_up : forall s k, online_of (e_spus s) k = true <-> up s k.
Proof.
  intros s k. unfold online_of, up. rewrite existsb_exists. split.
  - intros ([x st] & HI & E). cbn in E. apply andb_true_iff in E as [E1 E2]. apply Z.eqb_eq in E1. subst x.
    destruct st; try discriminate. exact HI.
  - intros H. exists (k, SOnline). split; [exact H|]. cbn. rewrite Z.eqb_refl. reflexivity.
Qed.

Lemma distinct_nodup : forall l, distinct l = true -> NoDup l.
Proof.
  induction l as [|x l IH]; cbn; intros H; [constructor|].
  apply andb_true_iff in H as [H1 H2]. constructor; [|auto].
  intros HI. apply zmem_in in HI. rewrite HI in H1. discriminate.
Qed.
Lemma nodup_distinct : forall l, NoDup l -> distinct l = true.
Proof.
  induction l as [|x l IH]; cbn; intros H; [reflexivity|]. inversion H as [|a b N D]; subst.
  rewrite IH by assumption. destruct (zmem x l) eqn:E; [|reflexivity]. apply zmem_in in E. contradiction.
Qed.
Lemma same_spu_eq : forall a b, same_spu a b = true <-> a = b.
Proof.
  intros [x st] [y st']. unfold same_spu. cbn. rewrite andb_true_iff, Z.eqb_eq. split.
  - intros [-> E]. destruct st, st'; try discriminate; reflexivity.
  - intros [= -> ->]. split; [reflexivity|]. destruct st'; reflexivity.
Qed.
Lemma order_in : forall l m, order_of l m = true -> NoDup (map fst l) /\ forall e, In e l <-> In e m.
Proof.
  intros l m H. unfold order_of in H. apply andb_true_iff in H as [H H3]. apply andb_true_iff in H as [H1 H2].
  split; [apply distinct_nodup, H1|]. rewrite forallb_forall in H2, H3. intros e. split; intros HI.
  - apply H2 in HI. apply existsb_exists in HI as (e' & HI & E). apply same_spu_eq in E. subst e'. exact HI.
  - apply H3 in HI. apply existsb_exists in HI as (e' & HI & E). apply same_spu_eq in E. subst e'. exact HI.
Qed.
Lemma order_refl : forall l, NoDup (map fst l) -> order_of l l = true.
Proof.
  intros l H. unfold order_of. rewrite (nodup_distinct _ H). cbn.
  assert (G : forallb (fun e => existsb (same_spu e) l) l = true).
  { apply forallb_forall. intros e HI. apply existsb_exists. exists e. split; [exact HI|]. apply same_spu_eq. reflexivity. }
  rewrite G. reflexivity.
Qed.

Lemma nodup_filter : forall (f : Z * sstatus -> bool) l, NoDup (map fst l) -> NoDup (map fst (filter f l)).
Proof.
  intros f l. induction l as [|e l IH]; cbn; intros H; [constructor|]. inversion H as [|a b N D]; subst.
  destruct (f e); cbn; [|auto]. constructor; [|auto]. intros HI. apply N.
  apply in_map_iff in HI as (x & E & HI). apply filter_In in HI as [HI _]. rewrite <- E. apply in_map, HI.
Qed.

Lemma fst_unique : forall (l : list (Z * sstatus)) k a b, NoDup (map fst l) -> In (k, a) l -> In (k, b) l -> a = b.
Proof.
  induction l as [|[x st] l IH]; cbn; intros k a b ND HA HB; [contradiction|].
  inversion ND as [|y z N D]; subst.
  destruct HA as [HA|HA], HB as [HB|HB].
  - congruence.
  - exfalso. apply N. injection HA as -> _. change k with (fst (k, b)). apply in_map, HB.
  - exfalso. apply N. injection HB as -> _. change k with (fst (k, a)). apply in_map, HA.
  - eapply IH; eassumption.
Qed.

Lemma in_turn_in : forall l k st, In (k, st) (in_turn l) <-> In (k, st) l /\ st <> SInit.
Proof.
  intros l k st. unfold in_turn. rewrite in_app_iff, !filter_In. cbn.
  destruct st; cbn; intuition congruence.
Qed.
Lemma in_turn_nodup : forall l, NoDup (map fst l) -> NoDup (map fst (in_turn l)).
Proof.
  intros l H. unfold in_turn. rewrite map_app.
  assert (G : forall l1 l2 : list Z, NoDup l1 -> NoDup l2 -> (forall x, In x l1 -> In x l2 -> False) -> NoDup (l1 ++ l2)).
  { induction l1 as [|x l1 IH]; cbn; intros l2 N1 N2 D; [exact N2|]. inversion N1; subst. constructor.
    - intros HI. apply in_app_or in HI as [HI|HI]; [contradiction|]. eapply D; [left; reflexivity|exact HI].
    - apply IH; auto. intros y H1' H2'. eapply D; [right; exact H1'|exact H2']. }
  apply G; try (apply nodup_filter; exact H).
  intros x H1 H2. apply in_map_iff in H1 as ([a sa] & Ea & Ha). apply in_map_iff in H2 as ([b sb] & Eb & Hb).
  cbn in Ea, Eb. subst a b. apply filter_In in Ha as [Ha Da], Hb as [Hb Db]. cbn in Da, Db.
  pose proof (fst_unique _ _ _ _ H Ha Hb). subst sb. destruct sa; discriminate.
Qed.

(** offline servers come first *)
Definition sorted (l : list (Z * sstatus)) : Prop :=
  exists offs ons, l = offs ++ ons /\ Forall (fun e => snd e = SOffline) offs /\ Forall (fun e => snd e = SOnline) ons.
Lemma in_turn_sorted : forall l, sorted (in_turn l).
Proof.
  intros l. unfold sorted, in_turn. do 2 eexists. split; [reflexivity|].
  split; apply Forall_forall; intros [k st] H; apply filter_In in H as [_ H]; cbn in *; destruct st; try discriminate; reflexivity.
Qed.
Lemma sorted_tail : forall e l, sorted (e :: l) -> sorted l.
Proof.
  intros e l (offs & ons & E & F1 & F2). destruct offs as [|x offs].
  - destruct ons as [|y ons]; [discriminate|]. injection E as <- ->. inversion F2; subst.
    exists [], ons. split; [reflexivity|]. split; [constructor|assumption].
  - injection E as <- ->. inversion F1; subst. exists offs, ons. split; [reflexivity|]. split; assumption.
Qed.
Lemma sorted_on : forall k l x, sorted ((k, SOnline) :: l) -> In (x, SOffline) ((k, SOnline) :: l) -> False.
Proof.
  intros k l x (offs & ons & E & F1 & F2) HI. destruct offs as [|y offs].
  - cbn in E. rewrite E in HI. rewrite Forall_forall in F2. specialize (F2 _ HI). discriminate.
  - injection E as <- _. inversion F1; subst. discriminate.
Qed.
Lemma sorted_init : forall k l, sorted ((k, SInit) :: l) -> False.
Proof.
  intros k l (offs & ons & E & F1 & F2). destruct offs as [|y offs].
  - cbn in E. destruct ons as [|z ons]; [discriminate|]. injection E as <- _. inversion F2; subst. discriminate.
  - injection E as <- _. inversion F1; subst. discriminate.
Qed.

(** ** Actions that wait *)

Definition after_all (l : list eaction) (p : partition) : partition := fold_left (fun p a => apply_action a p) l p.
Definition virt (s : elects) (p : partition) : partition := after_all (e_queue s ++ e_acc s) p.

Definition key_of (a : eaction) : Z := match a with UpdateSpec k _ | UpdateStatus k _ => k end.

Lemma apply_key : forall a p, pt_key (apply_action a p) = pt_key p.
Proof. intros [k sp|k st] p; cbn; destruct (pt_key p =? k); reflexivity. Qed.
Lemma after_key : forall l p, pt_key (after_all l p) = pt_key p.
Proof.
  induction l as [|a l IH]; intros p; [reflexivity|]. cbn. unfold after_all in IH. rewrite IH. apply apply_key.
Qed.
Lemma apply_other : forall a p, key_of a <> pt_key p -> apply_action a p = p.
Proof. intros [k sp|k st] p H; cbn in *; destruct (Z.eqb_spec (pt_key p) k); congruence. Qed.
Lemma after_other : forall l p, Forall (fun a => key_of a <> pt_key p) l -> after_all l p = p.
Proof.
  induction l as [|a l IH]; intros p H; [reflexivity|]. inversion H; subst. cbn. rewrite apply_other by assumption.
  apply IH. assumption.
Qed.
Lemma after_app : forall l1 l2 p, after_all (l1 ++ l2) p = after_all l2 (after_all l1 p).
Proof. intros l1 l2 p. unfold after_all. apply fold_left_app. Qed.
Lemma about_key : forall k a, about k a <-> key_of a = k.
Proof. intros k [k' sp|k' st]; reflexivity. Qed.
Lemma no_about : forall k l, ~ Exists (about k) l -> Forall (fun a => key_of a <> k) l.
Proof.
  intros k l H. apply Forall_forall. intros a HI E. apply H. apply Exists_exists. exists a. split; [exact HI|].
  apply about_key, E.
Qed.

(** the actions of all partitions, for one of them *)
Lemma after_flat : forall (f : partition -> list eaction) parts p v,
  (forall q a, In a (f q) -> key_of a = pt_key q) ->
  NoDup (map pt_key parts) -> In p parts -> pt_key v = pt_key p ->
  after_all (flat_map f parts) v = after_all (f p) v.
Proof.
  intros f parts p v K. revert v.
  induction parts as [|q parts IH]; intros v ND HI EV; [destruct HI|]. cbn in *. inversion ND as [|x y N D]; subst.
  rewrite after_app. destruct HI as [->|HI].
  - rewrite (after_other (flat_map f parts)); [reflexivity|].
    apply Forall_forall. intros a HA. rewrite after_key. apply in_flat_map in HA as (q' & HQ & HA).
    rewrite (K _ _ HA), EV. intros E. apply N. rewrite <- E. apply in_map, HQ.
  - rewrite (after_other (f q)); [apply IH; assumption|].
    apply Forall_forall. intros a HA. rewrite (K _ _ HA), EV. intros E. apply N. rewrite E. apply in_map, HI.
Qed.

Lemma off_key : forall online k q a, In a (elect_off online k q) -> key_of a = pt_key q.
Proof.
  intros online k q a H. unfold elect_off in H. destruct (ps_leader (pt_spec q) =? k); [|destruct H].
  destruct (candidate_leader online (pt_status q)).
  - destruct H as [<-|[]]. reflexivity.
  - destruct (is_online (pt_status q)); [|destruct H]. destruct H as [<-|[]]. reflexivity.
Qed.
Lemma on_key : forall k q a, In a (elect_on k q) -> key_of a = pt_key q.
Proof.
  intros k q a H. unfold elect_on in H. destruct (is_readable (pt_status q)); [destruct H|].
  destruct (ps_leader (pt_spec q) =? k); [destruct H as [<-|[]]; reflexivity|].
  apply in_flat_map in H as (r & _ & H). match type of H with In _ (if ?b then _ else _) => destruct b end; [|destruct H].
  destruct H as [<-|[]]. reflexivity.
Qed.

(** what one server does to one partition *)
Definition one_for (online : Z -> bool) (e : Z * sstatus) (p : partition) : list eaction :=
  match snd e with SOffline => elect_off online (fst e) p | SOnline => elect_on (fst e) p | SInit => [] end.
Lemma one_key : forall online e q a, In a (one_for online e q) -> key_of a = pt_key q.
Proof.
  intros online [k st] q a H. unfold one_for in H. cbn in H.
  destruct st; [destruct H|eapply on_key, H|eapply off_key, H].
Qed.
Lemma elect_for_flat : forall online e parts, elect_for online e parts = flat_map (one_for online e) parts.
Proof.
  intros online [k st] parts. unfold elect_for, one_for; cbn. destruct st; try reflexivity.
  induction parts; cbn; auto.
Qed.

(** ** What every state satisfies *)

Definition sane_action (a : eaction) : Prop := match a with UpdateStatus _ st => sane st | _ => True end.
Record base (s : elects) : Prop := {
  b_ids : NoDup (map fst (e_spus s));
  b_keys : NoDup (map pt_key (e_parts s));
  b_sane : Forall (fun p => sane (pt_status p)) (e_parts s);
  b_acts : Forall sane_action (e_queue s ++ e_acc s) }.

Lemma sane_res : forall st r, sane st -> sane (set_resolution st r).
Proof. intros st r H. exact H. Qed.

Lemma rs_merge_sane : forall a b, -1 <= r_leo a < 2 ^ 62 -> -1 <= r_leo b < 2 ^ 62 ->
  -1 <= r_leo (fst (rs_merge a b)) < 2 ^ 62 /\
  forall o, snd (rs_merge a b) = Some o -> -1 <= r_leo o < 2 ^ 62.
Proof.
  intros a b A B. unfold rs_merge. destruct (r_spu b =? -1); [cbn; split; [exact A|discriminate]|].
  destruct ((r_spu a =? -1) || (r_spu a =? r_spu b)); cbn; split; try discriminate.
  - destruct (r_leo b =? -1); assumption.
  - exact B.
  - intros o [= <-]. exact A.
Qed.
Lemma merge_follower_sane : forall l s, Forall (fun r => -1 <= r_leo r < 2 ^ 62) l -> -1 <= r_leo s < 2 ^ 62 ->
  Forall (fun r => -1 <= r_leo r < 2 ^ 62) (merge_follower l s).
Proof.
  induction l as [|x l IH]; intros s F S; cbn; [constructor; auto|]. inversion F; subst.
  destruct (r_spu x =? r_spu s); constructor; auto. apply rs_merge_sane; assumption.
Qed.
Lemma merge_sane : forall a b, sane a -> sane b -> sane (ps_merge a b).
Proof.
  intros a b [A1 A2] [B1 B2]. unfold ps_merge.
  destruct (rs_merge_sane (st_leader a) (st_leader b) A1 B1) as [M1 M2].
  destruct (rs_merge (st_leader a) (st_leader b)) as [leader old] eqn:E. cbn in M1, M2.
  split; cbn; [exact M1|].
  assert (F0 : Forall (fun r => -1 <= r_leo r < 2 ^ 62) (match old with Some o => st_replicas a ++ [o] | None => st_replicas a end)).
  { destruct old as [o|]; [|exact A2]. apply Forall_app. split; [exact A2|]. constructor; [apply M2; reflexivity|constructor]. }
  set (rs0 := match old with Some o => st_replicas a ++ [o] | None => st_replicas a end) in *. clearbody rs0.
  assert (F1 : Forall (fun r => -1 <= r_leo r < 2 ^ 62) (fold_left merge_follower (st_replicas b) rs0)).
  { clear - B2 F0. revert rs0 F0. induction (st_replicas b) as [|x l IH]; intros rs0 F0; cbn; [exact F0|].
    inversion B2; subst. apply IH; [assumption|]. apply merge_follower_sane; assumption. }
  apply Forall_forall. intros r HI. apply filter_In in HI as [HI _]. rewrite Forall_forall in F1. apply F1, HI.
Qed.

Lemma apply_sane : forall a p, sane_action a -> sane (pt_status p) -> sane (pt_status (apply_action a p)).
Proof. intros [k sp|k st] p SA SP; cbn in *; destruct (pt_key p =? k); assumption. Qed.
Lemma one_sane : forall online e p a, sane (pt_status p) -> In a (one_for online e p) -> sane_action a.
Proof.
  intros online [k st] p a S H. unfold one_for in H; cbn in H. destruct st; [destruct H| |].
  - unfold elect_on in H. destruct (is_readable (pt_status p)); [destruct H|].
    destruct (ps_leader (pt_spec p) =? k); [destruct H as [<-|[]]; exact S|].
    apply in_flat_map in H as (r & _ & H). match type of H with In _ (if ?b then _ else _) => destruct b end; [|destruct H].
    destruct H as [<-|[]]. exact I.
  - unfold elect_off in H. destruct (ps_leader (pt_spec p) =? k); [|destruct H].
    destruct (candidate_leader online (pt_status p)); [destruct H as [<-|[]]; exact I|].
    destruct (is_online (pt_status p)); [|destruct H]. destruct H as [<-|[]]; exact S.
Qed.

Lemma find_part_in : forall k l p, find_part k l = Some p -> In p l /\ pt_key p = k.
Proof. intros k l p H. unfold find_part in H. apply find_some in H as [HI E]. apply Z.eqb_eq in E. auto. Qed.
Lemma find_part_none : forall k l, find_part k l = None -> ~ In k (map pt_key l).
Proof.
  intros k l H HI. apply in_map_iff in HI as (p & E & HI). unfold find_part in H.
  pose proof (find_none _ _ H _ HI) as N. cbn in N. rewrite E, Z.eqb_refl in N. discriminate.
Qed.
Lemma fst_set_status : forall k st l, map fst (set_status k st l) = map fst l.
Proof.
  intros k st l. unfold set_status. induction l as [|e l IH]; cbn; [reflexivity|]. rewrite IH. f_equal.
  destruct (Z.eqb_spec (fst e) k); cbn; congruence.
Qed.
Lemma known_in : forall k l, known k l = true <-> In k (map fst l).
Proof.
  intros k l. unfold known. rewrite existsb_exists, in_map_iff. split.
  - intros (e & HI & E). apply Z.eqb_eq in E. eauto.
  - intros (e & E & HI). exists e. split; [exact HI|]. apply Z.eqb_eq, E.
Qed.
Lemma nodup_snoc : forall (l : list Z) x, NoDup l -> ~ In x l -> NoDup (l ++ [x]).
Proof.
  intros l x ND N. apply NoDup_rev in ND. rewrite <- (rev_involutive (l ++ [x])). apply NoDup_rev.
  rewrite rev_app_distr. cbn. constructor; [|exact ND]. rewrite <- in_rev. exact N.
Qed.

Lemma base_step : forall s a s', base s -> plausible s a -> estep s a = Some s' -> base s'.
Proof.
  intros s a s' [BI BK BS BA] PL H. destruct a; cbn in H.
  - destruct (known k (e_spus s)) eqn:E; [discriminate|]. injection H as <-. split; cbn; try assumption.
    rewrite map_app. cbn. apply nodup_snoc; [exact BI|]. intros HI. apply known_in in HI. congruence.
  - injection H as <-. split; cbn; try assumption. apply nodup_filter, BI.
  - destruct (find_spu k (e_spus s)) as [st|]; [|discriminate].
    destruct (status_eqb st (as_status up)); injection H as <-; split; cbn; try assumption.
    rewrite fst_set_status. exact BI.
  - destruct (find_part k (e_parts s)) eqn:E; [discriminate|]. injection H as <-. split; cbn; try assumption.
    + rewrite map_app. cbn. apply nodup_snoc; [exact BK|]. apply find_part_none, E.
    + apply Forall_app. split; [exact BS|]. constructor; [|constructor]. cbn. split; cbn; [lia|constructor].
  - destruct (find_part k (e_parts s)) as [p|] eqn:E; [|discriminate]. injection H as <-. split; cbn; try assumption.
    apply find_part_in in E as [HI _]. rewrite Forall_forall in BS. rewrite <- app_assoc.
    apply Forall_app in BA as [B1 B2]. apply Forall_app. split; [exact B1|]. constructor; [|exact B2].
    cbn. apply merge_sane; [apply BS, HI|apply sane_res, PL].
  - destruct (find_part k (e_parts s)) as [p|] eqn:E; [|discriminate]. injection H as <-. split; cbn; try assumption.
    apply find_part_in in E as [HI _]. rewrite Forall_forall in BS. rewrite <- app_assoc.
    apply Forall_app in BA as [B1 B2]. apply Forall_app. split; [exact B1|]. constructor; [|exact B2].
    cbn. apply sane_res, BS, HI.
  - destruct (e_todo s); [|discriminate]. destruct (e_acc s); [|discriminate].
    destruct (order_of order (changed_now s)); [|discriminate]. injection H as <-. split; cbn; assumption.
  - destruct (e_todo s) as [|e t]; [discriminate|]. injection H as <-. split; cbn; try assumption.
    rewrite app_assoc. apply Forall_app. split; [exact BA|]. rewrite elect_for_flat.
    apply Forall_forall. intros a HA. apply in_flat_map in HA as (q & HQ & HA).
    rewrite Forall_forall in BS. eapply one_sane; [apply BS, HQ|exact HA].
  - destruct (e_todo s); [|discriminate]. destruct (e_acc s) as [|x t] eqn:EA; [discriminate|]. injection H as <-.
    split; cbn; try assumption. rewrite <- app_assoc. exact BA.
  - destruct (e_queue s) as [|x t] eqn:EQ; [discriminate|]. injection H as <-. cbn in BA. inversion BA; subst.
    split; cbn; try assumption.
    + rewrite map_map. rewrite (map_ext _ pt_key (apply_key x)). exact BK.
    + rewrite Forall_forall in *. intros p HI. apply in_map_iff in HI as (q & <- & HI). apply apply_sane; auto.
  - injection H as <-. split; cbn; assumption.
  - injection H as <-. split; cbn; try assumption. constructor.
Qed.

Lemma eruns_inv : forall (ok : elects -> elect_act -> Prop) (J : elects -> Prop) s0,
  J s0 -> (forall s a s', J s -> ok s a -> estep s a = Some s' -> J s') -> forall s, eruns ok s0 s -> J s.
Proof.
  intros ok J s0 H0 HS s R. induction R as [|a s1 s2 R IH OK ST]; [exact H0|]. eapply HS; eassumption.
Qed.
Lemma base_start : base no_cluster.
Proof. split; cbn; constructor. Qed.
Lemma base_runs : forall s, eruns plausible no_cluster s -> base s.
Proof. apply eruns_inv; [exact base_start|]. intros s a s' H P ST. eapply base_step; eassumption. Qed.
