(** C81: a node leads and follows what the metadata says.  C82: the files of a
    deleted topic go, those of other topics stay, and a name that is used again
    starts empty. *)
From Verif Require Import Base RoleModel RoleSpec RoleProofs RoleClaims.

(** ** C81 *)

(** After a message that carries a partition, the node plays the part that the
    metadata gives to it, and has no files if that is none. *)
Theorem C81_told : forall me es ks k, orderly_run me sys0 es -> In k ks ->
  let s := srun me sys0 es in let s' := sstep me s (Told ks []) in
  (forall r, actual s k = Some r -> involved me r) ->
  plays (s_node s') k (assigned me (actual s k)) /\
  (assigned me (actual s k) = Nothing -> n_disk (s_node s') k = None).
Proof. exact told_roles. Qed.
Print Assumptions C81_told.
Example C81_told_ex : orderly_run 1 sys0 a_history /\
  plays (s_node (srun 1 sys0 a_history)) 1 Leads /\ plays (s_node (srun 1 sys0 a_history)) 2 Leads.
Proof. exact (conj a_history_ok (conj (proj1 a_history_result) (proj1 (proj2 a_history_result)))). Qed.

Theorem C81_sync : forall me es k, orderly_run me sys0 es ->
  let s := srun me sys0 es in let s' := sstep me s (Sync []) in
  s_truth s <> [] -> (forall r, actual s k = Some r -> involved me r) ->
  plays (s_node s') k (assigned me (actual s k)) /\
  (assigned me (actual s k) = Nothing -> n_disk (s_node s') k = None).
Proof. exact sync_roles. Qed.
Print Assumptions C81_sync.

(** Between messages it plays the part it has last been told. *)
Theorem C81_known : forall me es, orderly_run me sys0 es -> let s := srun me sys0 es in
  forall k, (forall r, known s k = Some r -> involved me r) -> plays (s_node s) k (assigned me (known s k)).
Proof. exact roles_known. Qed.
Print Assumptions C81_known.
Example C81_known_ex : orderly_run 1 sys0 a_history /\
  forall k r, known (srun 1 sys0 a_history) k = Some r -> involved 1 r.
Proof. exact (conj a_history_ok a_history_involved). Qed.

(** A node without a replica does not lead, *)
Theorem C81_others : forall me es, orderly_run me sys0 es -> let s := srun me sys0 es in
  forall k r, known s k = Some r -> ~ involved me r ->
  n_lead (s_node s) k = false /\ forall l, get (n_follow (s_node s)) k = Some l -> l = r_leader r.
Proof. exact roles_others. Qed.
Print Assumptions C81_others.
Example C81_others_ex : orderly_run 3 sys0 uninvolved_history.
Proof. exact uninvolved_ok. Qed.

(** but follows, once it has heard of two leaders. *)
Theorem C81_uninvolved_refuted : exists es k r, let s := srun 3 sys0 es in orderly_run 3 sys0 es /\
  actual s k = Some r /\ known s k = Some r /\ ~ involved 3 r /\
  get (n_follow (s_node s)) k = Some (r_leader r) /\ n_disk (s_node s) k <> None.
Proof. exact uninvolved. Qed.
Print Assumptions C81_uninvolved_refuted.

(** Whatever has happened: a restart gives the node its parts and keeps its files. *)
Theorem C81_restart : forall me es k, let s := srun me sys0 es in s_truth s <> [] ->
  let s' := sstep me (sstep me s Stop) (Sync []) in
  plays (s_node s') k (assigned me (actual s k)) /\
  (assigned me (actual s k) <> Nothing -> n_disk (s_node s') k = opened (n_disk (s_node s) k)) /\
  (assigned me (actual s k) = Nothing -> n_disk (s_node s') k = n_disk (s_node s) k).
Proof. exact restart_roles_run. Qed.
Print Assumptions C81_restart.
Example C81_restart_ex : s_truth (srun 1 sys0 [Create 1 1 [1; 2] 0; Told [1] [1]]) <> [].
Proof. exact (fun E => match E in _ = l return match l with [] => False | _ => True end with eq_refl => Logic.I end). Qed.

(** Without one, a replica whose storage failed once is not led, *)
Theorem C81_not_retried_refuted : exists es k, let s := srun 1 sys0 es in assigned 1 (actual s k) = Leads /\
  forall ms, (forall e, In e ms -> good_message e) -> let s' := srun 1 s ms in
    assigned 1 (actual s' k) = Leads /\ plays (s_node s') k Nothing.
Proof. exact not_retried. Qed.
Print Assumptions C81_not_retried_refuted.

(** and a leader that hears of the next leader and of the deletion in one message leads on. *)
Theorem C81_still_leads_refuted : exists es k, let s := srun 1 sys0 es in actual s k = None /\ known s k = None /\
  forall ms, (forall e, In e ms -> good_message e) -> let s' := srun 1 s ms in
    actual s' k = None /\ n_lead (s_node s') k = true /\ n_disk (s_node s') k = Some [(0, 7)].
Proof. exact still_leads. Qed.
Print Assumptions C81_still_leads_refuted.

(** A followed replica has a running connection to its leader, *)
Theorem C81_connected : forall me es k l, get (n_follow (s_node (srun me sys0 es))) k = Some l ->
  n_groups (s_node (srun me sys0 es)) l = true.
Proof. exact run_served. Qed.
Print Assumptions C81_connected.
Example C81_connected_ex : get (n_follow (s_node (srun 3 sys0 uninvolved_history))) 1 = Some 2.
Proof. exact eq_refl. Qed.

(** and there is no other connection. *)
Theorem C81_no_other_connection : forall me es l, orderly_run me sys0 es -> n_groups (s_node (srun me sys0 es)) l = true ->
  exists k, get (n_follow (s_node (srun me sys0 es))) k = Some l.
Proof. exact run_needed. Qed.
Print Assumptions C81_no_other_connection.
Example C81_no_other_connection_ex : n_groups (s_node (srun 3 sys0 uninvolved_history)) 2 = true /\
  n_groups (s_node (srun 3 sys0 uninvolved_history)) 1 = false.
Proof. exact (conj eq_refl eq_refl). Qed.

(** ** C82 *)

(** All records of a replica were written to the topic that has this name. *)
Theorem C82_own_records : forall me es, orderly_run me sys0 es -> let s := srun me sys0 es in
  forall k r lst x, actual s k = Some r -> n_disk (s_node s) k = Some lst -> In x lst -> fst x = r_inc r.
Proof. exact records_own. Qed.
Print Assumptions C82_own_records.
Example C82_own_records_ex : orderly_run 1 sys0 a_history /\
  n_disk (s_node (srun 1 sys0 a_history)) 1 = Some [(0, 5); (0, 6)] /\ n_disk (s_node (srun 1 sys0 a_history)) 2 = Some [(2, 9)].
Proof. exact (conj a_history_ok (conj (proj1 (proj2 (proj2 a_history_result))) (proj1 (proj2 (proj2 (proj2 a_history_result)))))). Qed.

(** A partition that is gone, or being deleted, has no files on a node that has
    heard of it. *)
Theorem C82_gone : forall me es, orderly_run me sys0 es -> let s := srun me sys0 es in
  forall k, known s k = None -> (forall r, actual s k = Some r -> r_deleting r = true) -> n_disk (s_node s) k = None.
Proof. exact files_gone. Qed.
Print Assumptions C82_gone.

Theorem C82_gone_marked : forall me es, orderly_run me sys0 es -> let s := srun me sys0 es in
  forall k r, known s k = Some r -> r_deleting r = true -> n_disk (s_node s) k = None.
Proof. exact files_gone_marked. Qed.
Print Assumptions C82_gone_marked.

(** Files of a partition that is not being deleted only grow, whatever happens. *)
Theorem C82_kept : forall me es e k r d, let s := srun me sys0 es in
  actual s k = Some r -> r_deleting r = false -> n_disk (s_node s) k = Some d ->
  exists more, n_disk (s_node (sstep me s e)) k = Some (d ++ more) /\ (more = [] \/ exists x, e = Write k x).
Proof. exact kept. Qed.
Print Assumptions C82_kept.
Example C82_kept_ex : let s := srun 1 sys0 [Create 1 1 [1; 2] 0; Told [1] []; Write 1 7; Lead 1 2] in
  actual s 1 = Some (mkRep 2 [1; 2] false 0 0) /\ n_disk (s_node s) 1 = Some [(0, 7)].
Proof. exact (conj eq_refl eq_refl). Qed.

(** A node's report of a removal removes no other partition. *)
Theorem C82_reports : forall me es, orderly_run me sys0 es -> let s := srun me sys0 es in
  forall k r, actual s k = Some r -> actual (sstep me s Confirmed) k = None -> r_deleting r = true.
Proof. exact confirm_deletes. Qed.
Print Assumptions C82_reports.

(** A topic that is deleted while the node is down, or not connected, leaves its
    records to the next one of this name; *)
Theorem C82_restart_refuted : exists es k r, let s := srun 1 sys0 es in
  es = [Create 1 1 [1] 0; Sync []; Write 1 7; Stop; Remove 1; Create 1 1 [1] 0; Sync []] /\
  actual s k = Some r /\ plays (s_node s) k Leads /\ exists x, n_disk (s_node s) k = Some [x] /\ fst x <> r_inc r.
Proof. exact old_records_restart. Qed.
Print Assumptions C82_restart_refuted.

Theorem C82_reconnect_refuted : exists es k r, let s := srun 1 sys0 es in
  es = [Create 1 1 [1] 0; Sync []; Write 1 7; Remove 1; Create 1 1 [1] 0; Sync []] /\
  actual s k = Some r /\ plays (s_node s) k Leads /\ exists x, n_disk (s_node s) k = Some [x] /\ fst x <> r_inc r.
Proof. exact old_records_reconnect. Qed.
Print Assumptions C82_reconnect_refuted.

(** the report of the removal of the old partition deletes the new one; *)
Theorem C82_new_deleted_refuted : exists es k r, let s := srun 1 sys0 es in
  es = [Create 1 1 [1] 0; Sync []; Remove 1; Told [1] []; Create 1 1 [1] 0] /\
  actual s k = Some r /\ r_deleting r = false /\ actual (sstep 1 s Confirmed) k = None.
Proof. exact new_deleted. Qed.
Print Assumptions C82_new_deleted_refuted.

(** and a started node reports a removal that has not taken place. *)
Theorem C82_report_refuted : exists es k, let s := srun 1 sys0 es in
  es = [Create 1 1 [1] 0; Sync []; Write 1 7; Mark 1; Stop; Sync []] /\
  In k (n_out (s_node s)) /\ n_disk (s_node s) k = Some [(0, 7)] /\ actual (sstep 1 s Confirmed) k = None.
Proof. exact reported_not_removed. Qed.
Print Assumptions C82_report_refuted.
