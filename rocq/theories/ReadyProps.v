(** Creating a topic waits for its partitions. *)
From Coq Require Import ZArith List Bool.
Import ListNotations.
From Verif Require Import Base ReadyModel ReadySpec ReadyProofs ReadyClaims.
Open Scope Z_scope.

(** A topic that is no mirror is reported as created only if, at a moment while the request waited, the controller knew as many partitions of the topic, all online, as the topic has. *)
Theorem C114_ready : forall l s w, ready_run nothing_yet l = Some s -> answered w Ready s ->
  n_mirror w = true \/
  exists s1, moment nothing_yet l s1 /\ pending w s1 /\ all_online (n_uid w) (n_count w) (r_copy s1).
Proof. exact ready. Qed.
Print Assumptions C114_ready.
Example C114_ready_example : ready_run nothing_yet done = Some (after done) /\ answered two Ready (after done) /\ n_mirror two = false.
Proof. repeat split. Qed.

(** They were then online in the storage too, at that moment or before. *)
Theorem C114_was_there : forall l s w, ready_run nothing_yet l = Some s -> answered w Ready s -> n_mirror w = false ->
  exists s1, moment nothing_yet l s1 /\ all_online (n_uid w) (n_count w) (r_disk s1).
Proof. exact was_there. Qed.
Print Assumptions C114_was_there.
Example C114_was_there_example : ready_run nothing_yet namesake_run = Some (after namesake_run) /\ answered again Ready (after namesake_run).
Proof. repeat split. Qed.

(** If the controller knows of no partition of a topic of that name when the wait begins, and none is on the way, the partitions were online in the storage after that. *)
Theorem C114_fresh : forall l0 s0 sa l s w,
  ready_run nothing_yet l0 = Some s0 -> n_mirror w = false ->
  unowned (n_uid w) (r_copy s0) -> (forall p, In (PMod p) (r_way s0) -> p_owner p <> Some (n_uid w)) ->
  ready_step s0 (VAsk w) = Some sa -> ready_run sa l = Some s -> answered w Ready s ->
  exists s1, moment sa l s1 /\ all_online (n_uid w) (n_count w) (r_disk s1).
Proof. exact fresh. Qed.
Print Assumptions C114_fresh.
Example C114_fresh_example : let s0 := after [VWrite (PMod (mkP 90 (Some 9) true)); VSee] in
  unowned 7 (r_copy s0) /\ r_way s0 = [] /\ ready_step s0 (VAsk two) = Some (after asked) /\
  ready_run (after asked) (came ++ [VWrite (PMod (mine 70 true)); VSee; VWake; VStep; VStep]) = Some (after done).
Proof. repeat split. intros p [<- | []]. discriminate. Qed.

(** When no change is on the way, what the controller knows is what is in the storage. *)
Theorem C114_caught_up : forall l s, ready_run nothing_yet l = Some s -> r_way s = [] -> r_copy s = r_disk s.
Proof. exact caught_up. Qed.
Print Assumptions C114_caught_up.
Example C114_caught_up_example : r_way (after done) = [] /\ length (r_disk (after done)) = 3%nat.
Proof. split; reflexivity. Qed.

(** A request never sleeps while all partitions of its topic are online. *)
Theorem C114_awake : forall l s w m n, ready_run nothing_yet l = Some s -> r_task s = Some (w, RWait m n) -> ready_step s VWake = None ->
  ~ all_online (n_uid w) (n_count w) (r_copy s).
Proof. exact awake. Qed.
Print Assumptions C114_awake.
Example C114_awake_example : r_task (after waited) = Some (two, RWait 3 1) /\ ready_step (after waited) VWake = None.
Proof. split; reflexivity. Qed.

(** Once they are, it is answered by what the request does itself, if its time is not up. *)
Theorem C114_goes_on : forall l s w, ready_run nothing_yet l = Some s -> pending w s -> all_online (n_uid w) (n_count w) (r_copy s) ->
  exists l' s', Forall own l' /\ ready_run s l' = Some s' /\ answered w Ready s'.
Proof. exact goes_on. Qed.
Print Assumptions C114_goes_on.
Example C114_goes_on_example : let s := after (waited ++ [VWrite (PMod (mine 70 true)); VSee]) in
  pending two s /\ In (mine 70 true) (r_copy s) /\ In (mine 71 true) (r_copy s).
Proof. vm_compute. auto. Qed.

(** A request whose time is up tells how many partitions were online when it last looked, which were too few, and how many there should be. *)
Theorem C114_told : forall l s w n c, ready_run nothing_yet l = Some s -> answered w (NotProvisioned n c) s ->
  c = n_count w /\
  exists s1 names, moment nothing_yet l s1 /\ pending w s1 /\ ~ all_online (n_uid w) (n_count w) (r_copy s1) /\
    online_names (n_uid w) (r_copy s1) names /\ zlen names = n.
Proof. exact told_true. Qed.
Print Assumptions C114_told.
Example C114_told_example : answered two (NotProvisioned 1 2) (after (waited ++ [VTimer])).
Proof. reflexivity. Qed.

(** A mirror is reported at once, whatever its partitions are. *)
Theorem C114_mirror : forall s w, r_task s = None -> n_mirror w = true -> exists s', ready_step s (VAsk w) = Some s' /\ answered w Ready s'.
Proof. exact mirror. Qed.
Print Assumptions C114_mirror.
Example C114_mirror_example : r_task (after [VWrite (PMod (mine 70 false))]) = None /\ n_mirror (mkWant true 7 2) = true.
Proof. split; reflexivity. Qed.

(** Any other topic is waited for. *)
Theorem C114_waits : forall s w, r_task s = None -> n_mirror w = false -> exists s', ready_step s (VAsk w) = Some s' /\ pending w s'.
Proof. exact waits. Qed.
Print Assumptions C114_waits.
Example C114_waits_example : r_task (after [VWrite (PMod (mine 70 false))]) = None /\ n_mirror two = false.
Proof. split; reflexivity. Qed.

(** A topic without partitions is never reported as created. *)
Theorem C114_none : forall l s w, ready_run nothing_yet l = Some s -> n_mirror w = false -> n_count w <= 0 -> ~ answered w Ready s.
Proof. exact none. Qed.
Print Assumptions C114_none.
Example C114_none_example : ready_run nothing_yet [VAsk (mkWant false 7 0); VStep; VStep; VTimer] <> None.
Proof. discriminate. Qed.

(** There is one answer. *)
Theorem C114_stays : forall s w r e s', answered w r s -> ready_step s e = Some s' -> answered w r s'.
Proof. exact stays. Qed.
Print Assumptions C114_stays.
Example C114_stays_example : answered two Ready (after done) /\ ready_step (after done) (VWrite (PDel 70)) <> None.
Proof. split; [reflexivity | discriminate]. Qed.

(** A request that waits is answered when its time is up. *)
Theorem C114_timer : forall s w m n, r_task s = Some (w, RWait m n) ->
  exists s', ready_step s VTimer = Some s' /\ answered w (NotProvisioned n (n_count w)) s'.
Proof. exact timer. Qed.
Print Assumptions C114_timer.
Example C114_timer_example : r_task (after waited) = Some (two, RWait 3 1).
Proof. reflexivity. Qed.

(** In general not so after the wait began: of a topic that was deleted and is created again the partitions of the old one may be counted, although none was in the storage since. *)
Theorem C114_namesake_refuted : ~ (forall l s w, ready_run nothing_yet l = Some s -> answered w Ready s -> n_mirror w = false ->
  exists s1, moment nothing_yet l s1 /\ pending w s1 /\ all_online (n_uid w) (n_count w) (r_disk s1)).
Proof. exact namesake_refuted. Qed.
Print Assumptions C114_namesake_refuted.
