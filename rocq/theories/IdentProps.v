(** Ids of SPUs: C111. *)
From Coq Require Import ZArith List Bool.
Import ListNotations.
From Verif Require Import Base NameModel IdentModel IdentSpec IdentClaims.
Open Scope Z_scope.

(** If groups and custom SPUs keep out of each other's way, no id is ever used twice. *)
Theorem C111_unique : forall l, carefully start l -> unique (run start l).
Proof. exact ids_unique. Qed.
Print Assumptions C111_unique.
Example C111_unique_example : carefully start ([CreateGroup a 2 0; CheckGroup a; Sync] ++ custom c 5 ++ [CreateGroup b 2 10; CheckGroup b; Sync; Health 5 true]).
Proof. exact (proj1 careful_case). Qed.

(** In a cluster without groups, where SPUs are registered one after the other, no id is used twice, whatever is asked for. *)
Theorem C111_local : forall ops, unique (run start (flat_map events ops)).
Proof. exact local_unique. Qed.
Print Assumptions C111_local.
Example C111_local_example : map s_id (w_spus (run start (flat_map events [Custom a 1; Custom b 1; Custom b 2; Custom a 3; Remove a; Custom c 1]))) = [2; 1].
Proof. reflexivity. Qed.

(** A custom SPU is accepted exactly if neither its name nor its id is taken. *)
Theorem C111_accepted : forall w name id, w_flight (step w (Validate name id)) = (name, id) :: w_flight w <->
  (forall s, In s (w_spus w) -> s_name s <> name /\ s_id s <> id).
Proof. exact validated. Qed.
Print Assumptions C111_accepted.

(** Otherwise nothing happens. *)
Theorem C111_refused : forall w name id, (exists s, In s (w_spus w) /\ (s_name s = name \/ s_id s = id)) -> step w (Validate name id) = w.
Proof. exact refused. Qed.
Print Assumptions C111_refused.
Example C111_refused_example : exists s, In s (w_spus (run start (custom a 1))) /\ (s_name s = b \/ s_id s = 1).
Proof. eexists. split; [left; reflexivity | right; reflexivity]. Qed.

(** One that was accepted is there afterwards, and the others stay. *)
Theorem C111_registered : forall w name id, In (name, id) (w_flight w) ->
  (exists o, In (mkSpu name id true None o) (w_spus (step w (Register name id)))) /\
  (forall s, In s (w_spus w) -> s_name s <> name -> In s (w_spus (step w (Register name id)))).
Proof. exact registered. Qed.
Print Assumptions C111_registered.
Example C111_registered_example : In (a, 1) (w_flight (run start [Validate a 1])).
Proof. left. reflexivity. Qed.

(** None is registered that was not accepted. *)
Theorem C111_not_asked : forall w name id, ~ In (name, id) (w_flight w) -> step w (Register name id) = w.
Proof. exact not_asked. Qed.
Print Assumptions C111_not_asked.
Example C111_not_asked_example : ~ In (a, 1) (w_flight start).
Proof. intros []. Qed.

(** Unregistering removes the custom SPU of that name, and never one of a group. *)
Theorem C111_unregistered : forall w name s, In s (w_spus (step w (Unregister name))) <-> In s (w_spus w) /\ ~ (s_name s = name /\ s_custom s = true).
Proof. exact unregistered. Qed.
Print Assumptions C111_unregistered.

(** A report about the health of an id shows at the SPUs with that id, as it says, and changes nothing else. *)
Theorem C111_reported : forall w id up s, In s (w_spus (step w (Health id up))) <->
  exists o, In (mkSpu (s_name s) (s_id s) (s_custom s) (s_owner s) o) (w_spus w) /\ s_online s = if s_id s =? id then Some up else o.
Proof. exact reported. Qed.
Print Assumptions C111_reported.

(** Deleting a group removes it and its SPUs, and no other. *)
Theorem C111_group_deleted : forall w name g, find_group name (w_groups w) = Some g ->
  (forall s, In s (w_spus (step w (DeleteGroup name))) <-> In s (w_spus w) /\ s_owner s <> Some (g_uid g)) /\
  (forall x, In x (w_groups (step w (DeleteGroup name))) <-> In x (w_groups w) /\ g_name x <> name).
Proof. exact group_deleted. Qed.
Print Assumptions C111_group_deleted.
Example C111_group_deleted_example : find_group a (w_groups (run start [CreateGroup a 2 4; Sync])) = Some (mkGroup 0 a 2 4 Init).
Proof. reflexivity. Qed.

(** After a restart all groups are checked, and none was lost. *)
Theorem C111_restarted : forall w, w_groups (step w Restart) = w_groups w /\ w_spus (step w Restart) = w_spus w /\
  forall g, In g (w_groups w) -> In (g_name g) (w_pending (step w Restart)).
Proof. exact restarted. Qed.
Print Assumptions C111_restarted.

(** A group is found invalid exactly if an SPU that is not its own has one of its ids at that time, and is reserved otherwise. *)
Theorem C111_checked : forall w name g, In name (w_pending w) -> find_group name (w_groups w) = Some g ->
  0 <= g_replicas g -> - 2 ^ 31 <= g_min g -> g_min g + g_replicas g < 2 ^ 31 -> g_status g <> Reserved ->
  exists h, find_group name (w_groups (step w (CheckGroup name))) = Some h /\
    (g_status h = Invalid <-> conflict g (w_spus w)) /\ (g_status h = Reserved <-> ~ conflict g (w_spus w)).
Proof. exact checked. Qed.
Print Assumptions C111_checked.
Example C111_checked_example : let w := run start (custom c 5 ++ [CreateGroup a 2 4]) in In a (w_pending w) /\ find_group a (w_groups w) = Some (mkGroup 0 a 2 4 Init).
Proof. split; [left; reflexivity | reflexivity]. Qed.

(** A group that was reserved stays so until it is deleted. *)
Theorem C111_kept : forall w e name g, find_group name (w_groups w) = Some g -> g_status g = Reserved -> e <> DeleteGroup name ->
  exists h, find_group name (w_groups (step w e)) = Some h /\ g_status h = Reserved /\ g_uid h = g_uid g.
Proof. exact kept. Qed.
Print Assumptions C111_kept.
Example C111_kept_example : find_group a (w_groups (run start [CreateGroup a 2 4; CheckGroup a])) = Some (mkGroup 0 a 2 4 Reserved).
Proof. reflexivity. Qed.

(** Every replica of every group gets its SPU, with its own name and the id that is due. *)
Theorem C111_all : forall l g i, let w := run start l in (forall h, In h (w_groups w) -> 0 <= g_replicas h < 2 ^ 16) ->
  In g (w_groups w) -> 0 <= i < g_replicas g ->
  exists s, In s (w_spus (step w Sync)) /\ s_name s = print_replica (g_name g) i /\ s_id s = compute_spu_id (g_min g) i /\ s_custom s = false.
Proof. exact all_spus. Qed.
Print Assumptions C111_all.
Example C111_all_example : In (mkGroup 0 a 2 4 Init) (w_groups (run start [CreateGroup a 2 4])).
Proof. left. reflexivity. Qed.

(** The pod of a replica takes the id under which the SC knows the replica, whatever the name of the group. *)
Theorem C111_pod : forall g i, 0 <= i < 2 ^ 16 -> id_from_env (pod_name g i) (g_min g) = Some (s_id (as_spu g i)).
Proof. exact pod_id. Qed.
Print Assumptions C111_pod.
Example C111_pod_example : id_from_env (pod_name (mkGroup 0 [97; 45; 55] 12 100 Reserved) 11) 100 = Some 111.
Proof. reflexivity. Qed.

(** The private address the SC gives an SPU of a group is the one its pod has exactly if the group is called main. *)
Theorem C111_address : forall g i, private_host g i = pod_host g i <-> g_name g = main_name.
Proof. exact pod_address. Qed.
Print Assumptions C111_address.

(** An invalid group gets its SPUs nevertheless, with ids that are taken. *)
Theorem C111_invalid_refuted : exists l g, In g (w_groups (run start l)) /\ g_status g = Invalid /\ conflict g (w_spus (run start l)) /\
  (exists s, In s (w_spus (run start l)) /\ s_owner s = Some (g_uid g)) /\ ~ unique (run start l).
Proof. exact invalid_group. Qed.
Print Assumptions C111_invalid_refuted.

(** Two groups that are checked before their SPUs are there are both reserved though they share ids. *)
Theorem C111_two_groups_refuted : exists l g h, let w := run start l in In g (w_groups w) /\ In h (w_groups w) /\ g <> h /\ g_status g = Reserved /\ g_status h = Reserved /\ ~ unique w.
Proof. exact two_groups. Qed.
Print Assumptions C111_two_groups_refuted.

(** A custom SPU can take an id that is reserved for a group. *)
Theorem C111_custom_refuted : exists l g n id, let w := run start l in In g (w_groups w) /\ g_status g = Reserved /\ has_id g id /\
  w_spus (run w (custom n id)) = w_spus w ++ [mkSpu n id true None None] /\ ~ unique (run w (custom n id ++ [Sync])).
Proof. exact custom_in_group. Qed.
Print Assumptions C111_custom_refuted.

(** Creating a group that exists changes it, and a reserved one is not checked again. *)
Theorem C111_changed_refuted : exists l n r m, let w := run start l in unique w /\ (exists g, find_group n (w_groups w) = Some g /\ g_status g = Reserved) /\
  (exists g, find_group n (w_groups (run w [CreateGroup n r m; CheckGroup n; Sync])) = Some g /\ g_status g = Reserved) /\ ~ unique (run w [CreateGroup n r m; CheckGroup n; Sync]).
Proof. exact changed_group. Qed.
Print Assumptions C111_changed_refuted.

(** Two custom SPUs registered at the same time can get the same id. *)
Theorem C111_concurrent_refuted : exists l, (forall n r m, ~ In (CreateGroup n r m) l) /\ ~ unique (run start l).
Proof. exact two_at_once. Qed.
Print Assumptions C111_concurrent_refuted.

(** Ids of a group beyond the largest number are not checked. *)
Theorem C111_overflow_refuted : exists l g, let w := run start l in In g (w_groups w) /\ g_status g = Reserved /\ conflict g (w_spus w).
Proof. exact overflow. Qed.
Print Assumptions C111_overflow_refuted.

(** The SPUs of replicas that a group no longer has stay. *)
Theorem C111_left_refuted : exists l s g, let w := run start l in w_groups w = [g] /\ In s (w_spus (run w [CheckGroup (g_name g); Sync])) /\ s_custom s = false /\ ~ has_name g (s_name s).
Proof. exact left_over. Qed.
Print Assumptions C111_left_refuted.

(** A custom SPU named like a replica of a group is replaced by it. *)
Theorem C111_replaced_refuted : exists l n, let w := run start l in In (mkSpu n 9 true None None) (w_spus w) /\
  w_spus (run w [CreateGroup a 1 0; CheckGroup a; Sync]) = [mkSpu n 0 false (Some 0) None].
Proof. exact replaced. Qed.
Print Assumptions C111_replaced_refuted.

(** An invalid group is not checked again when the conflict is gone. *)
Theorem C111_stuck_refuted : exists l g, let w := run start l in w_groups w = [g] /\ g_status g = Invalid /\ w_spus w = [] /\ step w (CheckGroup (g_name g)) = w.
Proof. exact stuck. Qed.
Print Assumptions C111_stuck_refuted.

(** An SPU of an invalid group, which never runs, is shown as online when another one with its id is. *)
Theorem C111_online_refuted : exists l s, let w := run start l in In s (w_spus w) /\ s_online s = Some true /\ s_owner s = Some 0 /\
  exists g, w_groups w = [g] /\ g_uid g = 0 /\ g_status g = Invalid.
Proof. exact shown_online. Qed.
Print Assumptions C111_online_refuted.

(** A dry run of creating a group creates it. *)
Theorem C111_dry_refuted : exists name r m, w_groups (create_group true name r m start) <> w_groups start.
Proof. exact dry_group. Qed.
Print Assumptions C111_dry_refuted.
