(** Proofs about the life of a local cluster. *)
From Coq Require Import ZArith List Bool Lia.
Import ListNotations.
From Verif Require Import Base LifeModel LifeSpec.
Open Scope Z_scope.

Lemma extends_refl a : extends a a. Proof. exists []. now rewrite app_nil_r. Qed.
Lemma extends_trans a b c : extends a b -> extends b c -> extends a c.
Proof. intros (x & ->) (y & ->). exists (x ++ y). now rewrite app_assoc. Qed.

Ltac cases := repeat match goal with
  | |- context [match l_profile ?s with _ => _ end] => destruct (l_profile s) as [[]|] eqn:?
  | |- context [match f_kind ?c with _ => _ end] => destruct (f_kind c) eqn:?
  | |- context [match l_conf ?s with _ => _ end] => destruct (l_conf s) eqn:?
  | |- context [match l_run ?s with _ => _ end] => destruct (l_run s) eqn:?
  | |- context [match ?k with Fine => _ | _ => _ end] => destruct k
  | |- context [if f_profile ?c then _ else _] => destruct (f_profile c)
  | |- context [if ?b =? ?c then _ else _] => destruct (b =? c) eqn:?
  | |- context [match ?r with true => _ | false => _ end] => destruct r eqn:?
  | |- context [match ?o with Some _ => _ | None => _ end] => destruct o eqn:?
  | |- context [if kind_eq ?a ?b then _ else _] => destruct (kind_eq a b)
  end.
Ltac life := unfold after, ans, life_step, install, not_running, clean, version_fits, stop, here in *.

Lemma step_data s e dir : e <> Delete -> extends (l_data s dir) (l_data (after s e) dir).
Proof.
  intros N. destruct e; try congruence; life; cases; cbn; try apply extends_refl; try congruence.
  unfold set_data. destruct (dir =? f_dir c) eqn:E; [| apply extends_refl]. apply Z.eqb_eq in E. subst. now exists [d].
Qed.
Lemma kept s l dir : no_delete l -> extends (l_data s dir) (l_data (lived s l) dir).
Proof.
  revert s. induction l as [|e l IH]; intros s N; [apply extends_refl |]. cbn.
  apply (extends_trans _ (l_data (after s e) dir)); [apply step_data; intros ->; apply N; now left |].
  apply IH. intros H. apply N. now right.
Qed.
Lemma delete_only s dir : dir <> 0 -> l_data (after s Delete) dir = l_data s dir.
Proof.
  intros N. life. cases; cbn; auto; unfold set_data; destruct (dir =? 0) eqn:E; auto; apply Z.eqb_eq in E; congruence.
Qed.
Lemma only_work s e dir : e <> Delete -> ~ working e -> l_data (after s e) dir = l_data s dir.
Proof. intros N W. destruct e; try congruence; [.. | destruct W; now exists d]; life; cases; cbn; reflexivity. Qed.
Lemma work s d c : running c s -> ans s (Work d) = Done /\ l_data (after s (Work d)) (f_dir c) = l_data s (f_dir c) ++ [d] /\
  (forall dir, dir <> f_dir c -> l_data (after s (Work d)) dir = l_data s dir).
Proof.
  unfold running. intros H. life. rewrite H. cbn. unfold set_data. rewrite Z.eqb_refl. repeat split.
  intros dir N. destruct (dir =? f_dir c) eqn:E; auto. apply Z.eqb_eq in E. congruence.
Qed.

Lemma refused s e : ans s e = Refused \/ ans s e = Elsewhere -> after s e = s.
Proof. destruct e; life; cases; cbn; intros [H|H]; try discriminate; reflexivity. Qed.

Lemma start_iff s c k : ans s (Start c k) = Done \/ ans s (Start c k) = Failed <-> local_conf c /\ l_run s = None /\ l_conf s = None.
Proof.
  unfold local_conf. life. split.
  - intros H. destruct (f_kind c); try (destruct H; discriminate); destruct (l_run s); try (destruct H; discriminate); destruct (l_conf s); try (destruct H; discriminate); auto.
  - intros (K & R & C). rewrite R, C. destruct K as [K|K]; rewrite K; cbn; destruct k; cbn; auto.
Qed.
Lemma start_refused s c k : l_run s <> None \/ l_conf s <> None -> f_kind c <> KLocalK8 -> ans s (Start c k) = Refused.
Proof. intros H K. life. destruct (f_kind c), (l_run s), (l_conf s); cbn; auto; try congruence; destruct H; congruence. Qed.
Lemma started s c : local_conf c -> l_run s = None -> l_conf s = None -> ans s (Start c Fine) = Done /\ running c (after s (Start c Fine)) /\ installed c (after s (Start c Fine)) /\
  (f_profile c = true -> l_profile (after s (Start c Fine)) = Some (f_kind c)) /\
  (forall dir, l_data (after s (Start c Fine)) dir = l_data s dir).
Proof. intros K R C. life. unfold running, installed. destruct K as [K|K]; rewrite K, R, C; cbn; repeat split; intros ->; reflexivity. Qed.

(** servers run only with the config that is installed, or with none installed *)
Definition told (s : home) : Prop := forall c c', l_run s = Some c -> l_conf s = Some c' -> c = c'.
Lemma told_step s e : told s -> told (after s e).
Proof.
  unfold told. intros T. destruct e; life; cases; cbn; intros x y X Y; try congruence; try discriminate; apply T; congruence.
Qed.
Lemma one s l : told s -> told (lived s l).
Proof. revert s. induction l as [|e l IH]; intros s T; auto. cbn. apply IH. now apply told_step. Qed.
Lemma one_config p l c c' : running c (lived (new_home p) l) -> installed c' (lived (new_home p) l) -> c = c'.
Proof. apply (one (new_home p) l). intros x y X. discriminate. Qed.

Lemma shut s : on_local s -> ans s Shutdown = Done /\ l_run (after s Shutdown) = None /\ l_conf (after s Shutdown) = l_conf s /\
  l_profile (after s Shutdown) = l_profile s /\ forall dir, l_data (after s Shutdown) dir = l_data s dir.
Proof. intros [H|H]; life; rewrite H; cbn; repeat split. Qed.

Lemma resume_iff s w k : ans s (Resume w k) <> Refused <->
  on_local s /\ l_run s = None /\ exists c, installed c s /\ f_version c = w.
Proof.
  unfold on_local, installed. life. split.
  - intros H. destruct (l_profile s) as [[]|]; try congruence; destruct (l_run s); cbn in H; try congruence; destruct (l_conf s) as [c|]; cbn in H; try congruence;
      destruct (f_version c =? w) eqn:E; cbn in H; try congruence; apply Z.eqb_eq in E; repeat split; eauto.
  - intros ([P|P] & R & c & C & E); rewrite P, R, C; cbn; rewrite <- E, Z.eqb_refl; destruct k; discriminate.
Qed.
Lemma resumed s w c : on_local s -> l_run s = None -> installed c s -> f_version c = w ->
  ans s (Resume w Fine) = Done /\ running c (after s (Resume w Fine)) /\ installed c (after s (Resume w Fine)) /\
  forall dir, l_data (after s (Resume w Fine)) dir = l_data s dir.
Proof.
  unfold on_local, installed, running. intros P R C E. life. destruct P as [P|P]; rewrite P, R, C; cbn; rewrite E, Z.eqb_refl; cbn; repeat split.
Qed.
Lemma round_trip s c : on_local s -> running c s -> installed c s ->
  let s' := after (after s Shutdown) (Resume (f_version c) Fine) in
  running c s' /\ installed c s' /\ forall dir, l_data s' dir = l_data s dir.
Proof.
  intros P R C s'. destruct (shut s P) as (_ & A & B & Q & D). unfold s'.
  destruct (resumed (after s Shutdown) (f_version c) c) as (_ & X & Y & Z0); auto.
  - unfold on_local. rewrite Q. exact P.
  - unfold installed. now rewrite B.
  - split; [exact X |]. split; [exact Y |]. intros dir. now rewrite Z0.
Qed.

Lemma upgrade_done s w a r : ans s (Upgrade w a r) = Done ->
  exists c, installed c s /\ installed (with_version w c) (after s (Upgrade w a r)) /\ l_run (after s (Upgrade w a r)) = None /\
    l_profile (after s (Upgrade w a r)) = l_profile s /\ forall dir, l_data (after s (Upgrade w a r)) dir = l_data s dir.
Proof. unfold installed. life. cases; cbn; intros H; try discriminate; eexists; repeat split. Qed.
Lemma upgraded s w a r : on_local s -> ans s (Upgrade w a r) = Done ->
  let s' := after s (Upgrade w a r) in
  exists c, installed c s /\ running (with_version w c) (after s' (Resume w Fine)) /\ (forall dir, l_data (after s' (Resume w Fine)) dir = l_data s dir) /\
  forall v k, v <> w -> ans s' (Resume v k) = Refused.
Proof.
  intros P U s'. destruct (upgrade_done s w a r U) as (c & C & C' & R & Q & D). fold s' in C', R, Q, D.
  assert (P' : on_local s') by (unfold on_local; rewrite Q; exact P).
  destruct (resumed s' w (with_version w c) P' R C' eq_refl) as (_ & X & _ & Y).
  exists c. split; auto. split; auto. split; [intros dir; rewrite Y; apply D |].
  intros v k N. destruct (ans s' (Resume v k)) eqn:E; auto; exfalso;
    (assert (H : ans s' (Resume v k) <> Refused) by congruence; apply resume_iff in H; destruct H as (_ & _ & c2 & C2 & V2);
     unfold installed in *; rewrite C' in C2; injection C2 as <-; cbn in V2; congruence).
Qed.
Lemma upgrade_stops s w a r : ans s (Upgrade w a r) = Done \/ ans s (Upgrade w a r) = Failed -> l_run (after s (Upgrade w a r)) = None.
Proof. life. cases; cbn; intros [H|H]; try discriminate; reflexivity. Qed.
Lemma upgrade_failed s w a r : ans s (Upgrade w a r) = Failed -> l_conf (after s (Upgrade w a r)) = l_conf s /\ forall dir, l_data (after s (Upgrade w a r)) dir = l_data s dir.
Proof. life. cases; cbn; intros H; try discriminate; auto. Qed.

Lemma deleted s : ans s Delete = Done -> l_run (after s Delete) = None /\ l_conf (after s Delete) = None /\ l_data (after s Delete) 0 = [] /\
  forall c k, local_conf c -> ans (after s Delete) (Start c k) <> Refused.
Proof. life. cases; cbn; intros H; try discriminate; repeat split; intros c k [K|K]; rewrite K; destruct k; discriminate. Qed.
Lemma elsewhere s e : l_profile s = Some KCloud -> e = Shutdown \/ e = Delete \/ (exists w a r, e = Upgrade w a r) \/ (exists w k, e = Resume w k) ->
  ans s e = Refused /\ after s e = s.
Proof.
  intros P H. destruct H as [->|[->|[(w & a & r & ->)|(w & k & ->)]]]; life; rewrite P; cbn; auto. destruct a as [a|]; auto. destruct (kind_eq a KCloud); auto.
Qed.
(** a start that failed after servers were launched *)
Lemma failed_start s c : ans s (Start c Unseen) = Failed -> f_profile c = true ->
  let s' := after s (Start c Unseen) in
  running c s' /\ l_conf s' = None /\ (forall c' k, local_conf c' -> ans s' (Start c' k) = Refused) /\ (forall w k, ans s' (Resume w k) = Refused) /\
  forall c' k, local_conf c' -> ans (after s' Shutdown) (Start c' k) <> Refused.
Proof.
  intros A Pf s'. destruct (proj1 (start_iff s c Unseen) (or_intror A)) as (K & R & C).
  assert (E : s' = mkHome None (l_data s) (Some c) (Some (f_kind c))).
  { unfold s', after. unfold life_step, not_running, clean, install. rewrite R, C, Pf. destruct K as [K|K]; rewrite K; reflexivity. }
  rewrite E. clear E A s'. unfold local_conf, running. destruct K as [K|K]; rewrite K; cbn; repeat split; life; cbn; auto;
    intros c' k [K'|K']; rewrite K'; cbn; auto; destruct k; discriminate.
Qed.

Lemma ports_apart i j : 0 <= i < 5653 -> 0 <= j < 5653 -> i <> j ->
  spu_id i <> spu_id j /\ spu_port i <> spu_port j /\ spu_port i <> spu_private j /\ spu_private i <> spu_private j /\ 9010 <= spu_port i.
Proof.
  intros Hi Hj N. unfold spu_private, spu_id, spu_port. change (2 ^ 16) with 65536.
  rewrite !(Z.mod_small (i + 5001)), !(Z.mod_small (j + 5001)), !(Z.mod_small (9010 + i * 10)), !(Z.mod_small (9010 + j * 10)) by lia.
  destruct (Z.eq_dec i 5652) as [->|Ni]; destruct (Z.eq_dec j 5652) as [->|Nj]; try lia;
    rewrite ?(Z.mod_small (9010 + i * 10 + 1)), ?(Z.mod_small (9010 + j * 10 + 1)) by lia; cbn; lia.
Qed.

Lemma upgrade_iff s w a r : ans s (Upgrade w a r) = Done <->
  on_machine s /\ (a = None \/ a = l_profile s) /\ r = true /\ l_conf s <> None.
Proof.
  unfold on_machine. split.
  - life. destruct (l_profile s) as [k|]; [| discriminate]. intros H.
    destruct a as [a|]; [destruct (kind_eq a k) as [-> | ]; [| discriminate] |];
      destruct k; try discriminate; destruct r; try discriminate; destruct (l_conf s) as [c|]; try discriminate;
      (split; [auto | split; [auto | split; [auto | discriminate]]]).
  - intros (K & A & -> & C). life. destruct (l_conf s); [| congruence].
    destruct K as [K|[K|K]]; rewrite K in *; destruct A as [A|A]; rewrite A; reflexivity.
Qed.
Lemma shutdown_iff s : ans s Shutdown = Done <-> on_machine s.
Proof.
  unfold on_machine. life. split.
  - destruct (l_profile s) as [k|]; [| discriminate]. intros H. destruct k; try discriminate; auto.
  - intros [K|[K|K]]; rewrite K; reflexivity.
Qed.
Lemma delete_iff s : ans s Delete = Done <-> on_machine s.
Proof.
  unfold on_machine. life. split.
  - destruct (l_profile s) as [k|]; [| discriminate]. intros H. destruct k; try discriminate; auto.
  - intros [K|[K|K]]; rewrite K; reflexivity.
Qed.
Lemma profile_kept s e : (forall p, e <> Switch p) -> (forall c k, e <> Start c k) -> (forall w k, e <> Resume w k) -> l_profile (after s e) = l_profile s.
Proof. intros A B C. destruct e; try (exfalso; (now eapply A) || (now eapply B) || (now eapply C)); life; cases; cbn; congruence. Qed.
Lemma profile_set s c k : ans s (Start c k) = Done \/ ans s (Start c k) = Failed -> l_profile (after s (Start c k)) = if f_profile c then Some (f_kind c) else l_profile s.
Proof. intros H. apply start_iff in H. destruct H as ([K|K] & R & C); life; rewrite K, R, C; destruct k; reflexivity. Qed.
Lemma nothing_launched s c : ans s (Start c Unlaunched) = Failed -> let s' := after s (Start c Unlaunched) in
  l_run s' = None /\ l_conf s' = None /\ (forall dir, l_data s' dir = l_data s dir) /\ forall k, ans s' (Start c k) <> Refused.
Proof.
  intros H s'. destruct (proj1 (start_iff s c Unlaunched) (or_intror H)) as (K & R & C).
  assert (E : s' = mkHome None (l_data s) None (if f_profile c then Some (f_kind c) else l_profile s)).
  { unfold s', after. unfold life_step, not_running, clean, install. rewrite R, C. destruct K as [K|K]; rewrite K; reflexivity. }
  rewrite E. cbn. repeat split. intros k. life. cbn. destruct K as [K|K]; rewrite K; destruct k; discriminate.
Qed.

Lemma version_only w c : f_version (with_version w c) = w /\ f_dir (with_version w c) = f_dir c /\ f_spus (with_version w c) = f_spus c /\
  f_kind (with_version w c) = f_kind c /\ f_profile (with_version w c) = f_profile c /\ f_rest (with_version w c) = f_rest c.
Proof. repeat split. Qed.

Lemma switched s p : ans s (Switch p) = Done /\ l_profile (after s (Switch p)) = p /\ l_run (after s (Switch p)) = l_run s /\ l_conf (after s (Switch p)) = l_conf s.
Proof. repeat split. Qed.
Lemma resume_tried s w k c : installed c s -> ans s (Resume w k) <> Refused ->
  installed c (after s (Resume w k)) /\ l_run (after s (Resume w k)) = (match k with Unlaunched => None | _ => Some c end) /\
  l_profile (after s (Resume w k)) = (if f_profile c then Some (f_kind c) else l_profile s) /\ (ans s (Resume w k) = Done <-> k = Fine).
Proof.
  intros C H. apply resume_iff in H. destruct H as (P & R & c' & C' & V). unfold installed in *. rewrite C in C'. injection C' as <-.
  life. destruct P as [P|P]; rewrite P, R, C; cbn; rewrite V, Z.eqb_refl; destruct k; cbn; rewrite ?C, ?R; repeat split; intros; congruence.
Qed.
Lemma numbers i : 0 <= i < 5652 -> spu_id i = 5001 + i /\ spu_port i = 9010 + 10 * i /\ spu_private i = 9011 + 10 * i.
Proof. intros H. unfold spu_private, spu_id, spu_port. change (2 ^ 16) with 65536. rewrite !Z.mod_small; try rewrite !Z.mod_small; lia. Qed.

(** ** Examples and what is not so *)
Definition plain_conf : conf := mkConf 1 0 1 KLocal true 7.
Definition moved_conf : conf := mkConf 1 5 1 KLocal true 7.
Definition fresh_home : home := new_home None.
Definition used : home := lived fresh_home [Start plain_conf Fine; Work 10; Work 11].

Lemma delete_refuted : ~ (forall s c, local_conf c -> ans s Delete = Done -> l_data (after (after s Delete) (Start c Fine)) (f_dir c) = []).
Proof. intros C. discriminate (C (lived fresh_home [Start moved_conf Fine; Work 10]) moved_conf (or_introl eq_refl) eq_refl). Qed.
Lemma start_again_refuted : ~ (forall s c, l_run s = None -> l_conf s = None -> ans s (Start c Unseen) = Failed -> ans (after s (Start c Unseen)) (Start c Fine) <> Refused).
Proof. intros C. now apply (C fresh_home plain_conf). Qed.
Lemma shutdown_refuted : ~ (forall l c, running c (lived fresh_home l) -> ans (lived fresh_home l) Shutdown = Done).
Proof. intros C. discriminate (C [Start (mkConf 1 0 1 KLocal false 7) Fine] (mkConf 1 0 1 KLocal false 7) eq_refl). Qed.
Lemma delete_other_refuted : ~ (forall s c, running c s -> l_profile s = Some KLocal -> ans s Delete = Done -> l_data (after s Delete) 0 = l_data s 0 \/ f_dir c = 0).
Proof.
  intros C. pose (s := lived fresh_home [Start plain_conf Fine; Work 10; Delete; Start plain_conf Unseen; Work 11; Shutdown; Start moved_conf Fine]).
  destruct (C s moved_conf eq_refl eq_refl eq_refl) as [H|H]; discriminate.
Qed.
Lemma ports_refuted : ~ (forall i j, 0 <= i < 65535 - 5001 -> 0 <= j < 65535 - 5001 -> i <> j -> spu_port i <> spu_port j).
Proof. intros C. apply (C 0 32768); [lia | lia | discriminate | reflexivity]. Qed.
