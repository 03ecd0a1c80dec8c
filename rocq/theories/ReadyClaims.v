(** The claims about the wait for the partitions of a topic. *)
From Coq Require Import ZArith List Bool Lia.
Import ListNotations.
From Verif Require Import Base ListFacts ReadyModel ReadySpec ReadyProofs.
Open Scope Z_scope.

Lemma ready l s w :
  ready_run nothing_yet l = Some s -> answered w Ready s ->
  n_mirror w = true \/
  exists s1, moment nothing_yet l s1 /\ pending w s1 /\ all_online (n_uid w) (n_count w) (r_copy s1).
Proof.
  intros H A. pose proof (hist_run _ sound_start Logic.I l s H) as Hh. unfold hist in Hh. unfold answered in A.
  rewrite A in Hh. exact Hh.
Qed.

Lemma moment_run l s1 : moment nothing_yet l s1 -> exists l1 l2, l = l1 ++ l2 /\ ready_run nothing_yet l1 = Some s1.
Proof. auto. Qed.

Lemma was_there l s w :
  ready_run nothing_yet l = Some s -> answered w Ready s -> n_mirror w = false ->
  exists s1, moment nothing_yet l s1 /\ all_online (n_uid w) (n_count w) (r_disk s1).
Proof.
  intros H A Hm. destruct (ready _ _ _ H A) as [E|(t & (l1 & l2 & -> & Ht) & _ & Ha)]; [congruence |].
  assert (F : from_disk (fun _ => False) nothing_yet l1 t).
  { apply from_disk_run; auto using sound_start. intros p q E. right. exists nothing_yet. split; [now exists [], [] |].
    destruct p; [reflexivity | discriminate]. }
  destruct (F [] (r_way t) eq_refl) as [[]|(s1 & M & E)]. exists s1. split; [now apply moment_within |]. rewrite E. exact Ha.
Qed.

Lemma fresh l0 s0 sa l s w :
  ready_run nothing_yet l0 = Some s0 -> n_mirror w = false ->
  unowned (n_uid w) (r_copy s0) -> (forall p, In (PMod p) (r_way s0) -> p_owner p <> Some (n_uid w)) ->
  ready_step s0 (VAsk w) = Some sa -> ready_run sa l = Some s -> answered w Ready s ->
  exists s1, moment sa l s1 /\ all_online (n_uid w) (n_count w) (r_disk s1).
Proof.
  intros H0 Hm U V Ha Hr A. pose proof (sound_run _ _ _ sound_start H0) as S0.
  pose proof (sound_step _ _ _ S0 Ha) as Sa. cbn in Ha. destruct (r_task s0) eqn:Et; [discriminate |].
  injection Ha as Ea. rewrite Hm in Ea.
  assert (Hh : hist sa l s). { apply (hist_run sa Sa); auto. rewrite <- Ea. exact Logic.I. }
  unfold hist in Hh. unfold answered in A. rewrite A in Hh. destruct Hh as [E|(t & (l1 & l2 & -> & Ht) & _ & Hall)]; [congruence |].
  assert (F : from_disk (unowned (n_uid w)) sa l1 t).
  { apply from_disk_run; auto. intros p q E. left. rewrite <- Ea in *. cbn in *. apply changes_unowned; auto.
    intros x Hx. apply V. rewrite E. apply in_or_app. auto. }
  destruct (F [] (r_way t) eq_refl) as [Hu|(s1 & M & E)].
  - exfalso. exact (unowned_not _ _ _ Hu Hall).
  - exists s1. split; [now apply moment_within |]. rewrite E. exact Hall.
Qed.

Lemma caught_up l s : ready_run nothing_yet l = Some s -> r_way s = [] -> r_copy s = r_disk s.
Proof.
  intros H E. pose proof (so_way _ (sound_run _ _ _ sound_start H)) as W. rewrite E in W. exact W.
Qed.

Lemma awake l s w m n :
  ready_run nothing_yet l = Some s -> r_task s = Some (w, RWait m n) -> ready_step s VWake = None ->
  ~ all_online (n_uid w) (n_count w) (r_copy s).
Proof.
  intros H E N. pose proof (so_task _ (sound_run _ _ _ sound_start H)) as T. rewrite E in T. destruct T as [T1 T2].
  cbn in N. rewrite E in N. destruct (r_epoch s >? m) eqn:G; [discriminate |]. rewrite Z.gtb_ltb in G. apply Z.ltb_ge in G.
  apply T2. lia.
Qed.

Lemma scan_ready uid c l : keyed l -> all_online uid c l -> snd (scan uid c 0 l) = true.
Proof.
  intros K Ha. apply (all_online_iff _ _ _ K) in Ha. rewrite scan_found. apply andb_true_iff.
  rewrite Z.ltb_lt, Z.leb_le. lia.
Qed.

Lemma goes_on l s w :
  ready_run nothing_yet l = Some s -> pending w s -> all_online (n_uid w) (n_count w) (r_copy s) ->
  exists l' s', Forall own l' /\ ready_run s l' = Some s' /\ answered w Ready s'.
Proof.
  intros H P Ha. pose proof (sound_run _ _ _ sound_start H) as So.
  pose proof (scan_ready _ _ _ (so_copy _ So) Ha) as Sc.
  assert (B1 : forall t, r_copy t = r_copy s -> forall m, r_task t = Some (w, RScan m) ->
    exists s', ready_step t VStep = Some s' /\ answered w Ready s').
  { intros t Ec m Et. cbn. rewrite Et, Ec. destruct (scan (n_uid w) (n_count w) 0 (r_copy s)) as [n f]. cbn in Sc. subst f.
    eexists. split; [reflexivity |]. reflexivity. }
  assert (B2 : forall t, r_copy t = r_copy s -> forall m, r_task t = Some (w, RSync m) ->
    exists s', ready_run t [VStep; VStep] = Some s' /\ answered w Ready s').
  { intros t Ec m Et. destruct (B1 (with_task t w (RScan (r_epoch t))) Ec _ eq_refl) as (s' & R & A).
    exists s'. split; auto. change (ready_run t [VStep; VStep]) with
      (match ready_step t VStep with Some s1 => ready_run s1 [VStep] | None => None end).
    replace (ready_step t VStep) with (Some (with_task t w (RScan (r_epoch t)))) by (cbn; now rewrite Et).
    cbn [ready_run]. now rewrite R. }
  unfold pending in P. destruct (r_task s) as [[w' [m|m|m n|a]]|] eqn:Et; try contradiction; subst w'.
  - destruct (B2 s eq_refl _ Et) as (s' & R & A). exists [VStep; VStep], s'. split; [| split; auto].
    repeat constructor; unfold own; auto.
  - destruct (B1 s eq_refl _ Et) as (s' & R & A). exists [VStep], s'. split; [| split; auto].
    + repeat constructor; unfold own; auto.
    + cbn [ready_run]. now rewrite R.
  - destruct (ready_step s VWake) as [t|] eqn:Ew; [| exfalso; exact (awake _ _ _ _ _ H Et Ew Ha)].
    assert (Hw : r_copy t = r_copy s /\ r_task t = Some (w, RSync m)).
    { cbn in Ew. rewrite Et in Ew. destruct (r_epoch s >? m); [| discriminate]. injection Ew as <-. auto. }
    destruct Hw as [Ec Et']. destruct (B2 t Ec _ Et') as (s' & R & A). exists [VWake; VStep; VStep], s'.
    split; [| split; auto].
    + repeat apply Forall_cons; try apply Forall_nil; unfold own; auto.
    + change (ready_run s [VWake; VStep; VStep]) with
        (match ready_step s VWake with Some s1 => ready_run s1 [VStep; VStep] | None => None end). now rewrite Ew.
Qed.

Lemma told_true l s w n c :
  ready_run nothing_yet l = Some s -> answered w (NotProvisioned n c) s ->
  c = n_count w /\
  exists s1 names, moment nothing_yet l s1 /\ pending w s1 /\ ~ all_online (n_uid w) (n_count w) (r_copy s1) /\
    online_names (n_uid w) (r_copy s1) names /\ zlen names = n.
Proof.
  intros H A. pose proof (hist_run _ sound_start Logic.I l s H) as Hh. unfold hist in Hh. unfold answered in A.
  rewrite A in Hh. destruct Hh as (E & s1 & M & P & N & names & O & Z). split; auto. exists s1, names. auto.
Qed.

Lemma mirror s w : r_task s = None -> n_mirror w = true -> exists s', ready_step s (VAsk w) = Some s' /\ answered w Ready s'.
Proof. intros E M. cbn. rewrite E, M. eexists. split; reflexivity. Qed.

Lemma waits s w : r_task s = None -> n_mirror w = false -> exists s', ready_step s (VAsk w) = Some s' /\ pending w s'.
Proof. intros E M. cbn. rewrite E, M. eexists. split; reflexivity. Qed.

Lemma none l s w : ready_run nothing_yet l = Some s -> n_mirror w = false -> n_count w <= 0 -> ~ answered w Ready s.
Proof.
  intros H M C A. destruct (ready _ _ _ H A) as [E|(s1 & _ & _ & (P & _))]; [congruence | lia].
Qed.

(** an answer stays, and the time of a request that waits can be up at any moment *)
Lemma timer s w m n : r_task s = Some (w, RWait m n) ->
  exists s', ready_step s VTimer = Some s' /\ answered w (NotProvisioned n (n_count w)) s'.
Proof. intros E. cbn. rewrite E. eexists. split; reflexivity. Qed.
Lemma stays s w r e s' : answered w r s -> ready_step s e = Some s' -> answered w r s'.
Proof.
  unfold answered. intros A H. destruct e; cbn in H; rewrite ?A in H; try discriminate.
  - injection H as <-. reflexivity.
  - destruct (r_way s); [discriminate |]. injection H as <-. reflexivity.
Qed.

(** a topic with two partitions is deleted and created again *)
Definition old (k : Z) : part := mkP k (Some 7) true.
Definition again : want := mkWant false 7 2.
Definition namesake_run : list revent :=
  [VWrite (PMod (old 70)); VWrite (PMod (old 71)); VSee; VSee;
   VWrite (PDel 70); VWrite (PDel 71); VAsk again; VStep; VStep].
Lemma namesake_refuted :
  ~ (forall l s w, ready_run nothing_yet l = Some s -> answered w Ready s -> n_mirror w = false ->
       exists s1, moment nothing_yet l s1 /\ pending w s1 /\ all_online (n_uid w) (n_count w) (r_disk s1)).
Proof.
  intros H. assert (R : exists s, ready_run nothing_yet namesake_run = Some s /\ answered again Ready s).
  { eexists. split; [vm_compute; reflexivity | reflexivity]. }
  destruct R as (s & R & A). destruct (H _ _ _ R A eq_refl) as (s1 & (l1 & l2 & E & R1) & P & Ha).
  assert (D : r_disk s1 = []).
  { unfold namesake_run in E.
    do 7 (destruct l1 as [|x l1]; [cbn in R1; injection R1 as <-; contradiction |]; injection E as <- E).
    do 2 (destruct l1 as [|x l1]; [vm_compute in R1; injection R1 as <-; reflexivity |]; injection E as <- E).
    destruct l1; [| discriminate]. vm_compute in R1. injection R1 as <-. contradiction. }
  rewrite D in Ha. destruct Ha as (_ & names & _ & Z & Hn). destruct names as [|k r]; [discriminate |].
  destruct (Hn k (or_introl eq_refl)) as (p & [] & _).
Qed.

(** * Cases *)
Definition mine (k : Z) (b : bool) : part := mkP k (Some 7) b.
Definition two : want := mkWant false 7 2.
Definition asked : list revent := [VWrite (PMod (mkP 90 (Some 9) true)); VSee; VAsk two].
Definition came : list revent :=
  [VStep; VStep; VWrite (PMod (mine 70 false)); VWrite (PMod (mine 71 true)); VSee; VSee; VWake; VStep; VStep].
Definition waited : list revent := asked ++ came.
Definition done : list revent := waited ++ [VWrite (PMod (mine 70 true)); VSee; VWake; VStep; VStep].
Definition after (l : list revent) : rstate := match ready_run nothing_yet l with Some s => s | None => nothing_yet end.
