(** The properties of the local metadata storage. *)
From Verif Require Import LocalExamples.

(** C59: what is stored is there after a restart. *)
Theorem C59_restart : forall es s, runs calm mach0 es s ->
  forall k n, readable (c_sys s) k /\ visible (c_sys (restart (y_disk (c_sys s)))) k n = visible (c_sys s) k n.
Proof. exact restart_same. Qed.
Print Assumptions C59_restart.

Theorem C59_last_write : forall es1 s1 es2 s2 k n, runs calm mach0 es1 s1 -> runs calm s1 es2 s2 ->
  visible (c_sys s2) k n = last (history s1 es2 k n) (visible (c_sys s1) k n).
Proof. exact durable. Qed.
Print Assumptions C59_last_write.

Example C59_ex : exists es s o, runs calm mach0 es s /\ history mach0 es 0 1 = [Some o] /\ visible (c_sys s) 0 1 = Some o.
Proof. exact (ex_intro _ _ history_run). Qed.

Theorem C59_torn_refuted : exists es s i s', runs calm mach0 es s /\ visible (c_sys s) 0 1 = Some (plain 1 7) /\ visible (c_sys s) 0 2 = Some (plain 2 8) /\
  mach_step s (CrashIn i) = Some s' /\ visible (c_sys s') 0 1 = None /\ visible (c_sys s') 0 2 = None /\ ~ readable (c_sys s') 0.
Proof. destruct torn_run as [s [s' H]]. exact (ex_intro _ _ (ex_intro _ s (ex_intro _ 2%nat (ex_intro _ s' H)))). Qed.
Print Assumptions C59_torn_refuted.

Theorem C59_error_refuted : exists es s i s' s'', runs calm mach0 es s /\ mach_step s (Run i Untouched) = Some s' /\
  nth_error (c_tasks s') i = Some (Ret RErr) /\ option_map o_spec (visible (c_sys s') 0 1) = Some 9 /\ waiting (c_sys s') 0 = waiting (c_sys s) 0 /\
  mach_step s' Crash = Some s'' /\ option_map o_spec (visible (c_sys s'') 0 1) = Some 7.
Proof. destruct error_run as [s [s' [s'' H]]]. exact (ex_intro _ _ (ex_intro _ s (ex_intro _ 2%nat (ex_intro _ s' (ex_intro _ s'' H))))). Qed.
Print Assumptions C59_error_refuted.

Theorem C59_deleted_back_refuted : exists es s s', runs any_event mach0 es s /\ nth_error (c_tasks s) 1 = Some (Ret RUnit) /\ visible (c_sys s) 0 1 = None /\
  mach_step s Crash = Some s' /\ visible (c_sys s') 0 1 = Some (plain 1 7).
Proof. exact (ex_intro _ _ back_run). Qed.
Print Assumptions C59_deleted_back_refuted.

Theorem C59_loaded_twice_refuted : exists es s, runs (fun _ e => no_fault e) mach0 (start_op (Apply 0 (plain 1 7)) :: es) s /\
  nth_error (c_tasks s) 0 = Some (Ret RUnit) /\ visible (c_sys s) 0 1 = None.
Proof. exact (ex_intro _ _ twice_run). Qed.
Print Assumptions C59_loaded_twice_refuted.

(** C60: a write that is based on an old value is refused. *)
Theorem C60_counted : forall es1 s1 es2 s2 k n o, runs calm mach0 es1 s1 -> runs calm s1 es2 s2 ->
  visible (c_sys s1) k n = Some o -> ~ In None (history s1 es2 k n) ->
  exists o', visible (c_sys s2) k n = Some o' /\ o_rev o' = o_rev o + Z.of_nat (length (history s1 es2 k n)).
Proof. exact counted. Qed.
Print Assumptions C60_counted.

Theorem C60_stale_refused : forall es1 s1 es2 s2 k n o i h t o' c, runs calm mach0 es1 s1 -> runs calm s1 es2 s2 ->
  visible (c_sys s1) k n = Some o -> ~ In None (history s1 es2 k n) -> history s1 es2 k n <> [] ->
  nth_error (c_tasks s2) i = Some (store_apply h o' c) -> nth_error (y_heap (c_sys s2)) h = Some t -> t_kind t = k ->
  o_name o' = n -> o_rev o' <= o_rev o ->
  mach_step s2 (Run i Fine) = Some (mkMach (c_sys s2) (set_nth i (Ret RErr) (c_tasks s2))).
Proof. exact stale_refused. Qed.
Print Assumptions C60_stale_refused.

Theorem C60_current_accepted : forall es s i h t o c, runs calm mach0 es s ->
  nth_error (c_tasks s) i = Some (store_apply h o c) -> nth_error (y_heap (c_sys s)) h = Some t ->
  (forall p, visible (c_sys s) (t_kind t) (o_name o) = Some p -> o_rev p <= o_rev o) ->
  exists s' o', mach_step s (Run i Fine) = Some s' /\ visible (c_sys s') (t_kind t) (o_name o) = Some o' /\ o_spec o' = o_spec o /\ o_status o' = o_status o.
Proof. exact current_accepted. Qed.
Print Assumptions C60_current_accepted.

Example C60_ex : exists es s o, runs calm mach0 es s /\ length (history mach0 es 0 1) = 3%nat /\ ~ In None (history mach0 es 0 1) /\
  visible (c_sys s) 0 1 = Some o /\ o_rev o = 2 /\ o_spec o = 11.
Proof. exact (ex_intro _ _ rev_run). Qed.

Example C60_stale_ex : exists es1 es2 s1 s2 o c, runs calm mach0 es1 s1 /\ runs calm s1 es2 s2 /\ visible (c_sys s1) 0 1 = Some o /\
  history s1 es2 0 1 <> [] /\ ~ In None (history s1 es2 0 1) /\
  nth_error (c_tasks s2) 2 = Some (store_apply 0 (mkObj (o_item o) 10 0) c) /\ option_map t_kind (nth_error (y_heap (c_sys s2)) 0) = Some 0%nat.
Proof. exact (ex_intro _ _ (ex_intro _ _ stale_run)). Qed.

(** An update of the spec keeps the status and an update of the status keeps the
    spec; the revision goes up by one; no other object changes. *)
Theorem C60_update_keeps : forall owner es m k i x y n s' r o, runs calm mach0 es m -> visible (c_sys m) k n = Some o -> n = i_id i -> ok_reply r ->
  (exec (prog_of owner (UpdateSpec k i x)) (c_sys m) = Some (s', r) ->
     exists o', visible s' k n = Some o' /\ o_spec o' = x /\ o_status o' = o_status o /\ o_rev o' = o_rev o + 1
       /\ forall k' n', ~ (k' = k /\ n' = n) -> visible s' k' n' = visible (c_sys m) k' n')
  /\ (exec (prog_of owner (UpdateByKey k n x)) (c_sys m) = Some (s', r) ->
     exists o', visible s' k n = Some o' /\ o_spec o' = x /\ o_status o' = o_status o /\ o_rev o' = o_rev o + 1
       /\ i_parent (o_item o') = i_parent (o_item o) /\ i_children (o_item o') = i_children (o_item o)
       /\ forall k' n', ~ (k' = k /\ n' = n) -> visible s' k' n' = visible (c_sys m) k' n')
  /\ (exec (prog_of owner (UpdateStatus k i y)) (c_sys m) = Some (s', r) ->
     exists o', visible s' k n = Some o' /\ o_status o' = y /\ o_spec o' = o_spec o /\ o_rev o' = o_rev o + 1
       /\ forall k' n', ~ (k' = k /\ n' = n) -> visible s' k' n' = visible (c_sys m) k' n').
Proof. exact update_keeps. Qed.
Print Assumptions C60_update_keeps.
Example C60_update_ex : exists es m s1 r1 s2 o, runs calm mach0 es m /\ visible (c_sys m) 0 1 = Some o /\ o_spec o = 7 /\ o_status o = 0
  /\ exec (prog_of own (UpdateStatus 0 (o_item o) 5)) (c_sys m) = Some (s1, r1) /\ ok_reply r1
  /\ exec (prog_of own (UpdateByKey 0 1 9)) s1 = Some (s2, RUnit)
  /\ option_map (fun o => (o_spec o, o_status o, o_rev o)) (visible s2 0 1) = Some (9, 5, 2).
Proof. exact update_run. Qed.

Theorem C60_created_again_refuted : exists s1 s2 s3 s4 o, exec (prog_of own (Apply 0 (plain 1 7))) sys0 = Some (s1, RUnit) /\ visible s1 0 1 = Some o /\
  exec (prog_of own (Delete 0 (o_item o))) s1 = Some (s2, RUnit) /\ exec (prog_of own (Apply 0 (plain 1 8))) s2 = Some (s3, RUnit) /\
  exec (prog_of own (UpdateSpec 0 (o_item o) 9)) s3 = Some (s4, RUnit) /\ option_map o_spec (visible s4 0 1) = Some 9.
Proof. exact aba_run. Qed.
Print Assumptions C60_created_again_refuted.

Theorem C60_second_update_refuted : exists s1 s2 s3 o, exec (prog_of own (Apply 0 (plain 1 7))) sys0 = Some (s1, RUnit) /\ visible s1 0 1 = Some o /\
  exec (prog_of own (UpdateSpec 0 (o_item o) 9)) s1 = Some (s2, RUnit) /\
  exec (prog_of own (UpdateStatus 0 (o_item o) 5)) s2 = Some (s3, RErr) /\ s3 = s2 /\ option_map o_status (visible s3 0 1) = Some 0.
Proof. exact second_run. Qed.
Print Assumptions C60_second_update_refuted.

(** C61: a deletion removes the object and its children, and nothing else. *)
Theorem C61_delete : forall owner es m k i s' r o, runs calm mach0 es m -> exec (prog_of owner (Delete k i)) (c_sys m) = Some (s', r) -> ok_reply r ->
  visible (c_sys m) k (i_id i) = Some o ->
  visible s' k (i_id i) = None /\
  (forall k' c, listed o k' c -> visible s' k' (i_id c) = None) /\
  (forall k' n', ~ (k' = k /\ n' = i_id i) -> (forall c, listed o k' c -> i_id c <> n') ->
     match visible (c_sys m) k' n' with
     | None => visible s' k' n' = None
     | Some x => exists x', visible s' k' n' = Some x' /\ o_spec x' = o_spec x /\ o_status x' = o_status x /\
                   (x' = x \/ exists p, i_parent (o_item o) = Some p /\ k' = owner k /\ n' = i_id p)
     end).
Proof. exact delete_exact. Qed.
Print Assumptions C61_delete.

Example C61_delete_ex : exists es m s' o, runs calm mach0 es m /\ exec (prog_of own (Delete 0 (item0 1))) (c_sys m) = Some (s', RUnit) /\
  visible (c_sys m) 0 1 = Some o /\ listed o 1 (item0 5) /\ visible (c_sys m) 1 5 <> None /\ visible s' 1 5 = None.
Proof. exact (ex_intro _ _ delete_run). Qed.

Theorem C61_no_orphans : forall owner s, lives owner (tidy owner) sys0 s ->
  forall k n o p, visible s k n = Some o -> i_parent (o_item o) = Some p ->
  exists po, visible s (owner k) (i_id p) = Some po /\ listed po k (without_parent (o_item o)).
Proof. exact owned_there. Qed.
Print Assumptions C61_no_orphans.

Theorem C61_only_own_children : forall owner s, lives owner (tidy owner) sys0 s ->
  forall k n po k' c, visible s k n = Some po -> listed po k' c ->
  owner k' = k /\ exists o p, visible s k' (i_id c) = Some o /\ i_parent (o_item o) = Some p /\ i_id p = n.
Proof. exact listed_owned. Qed.
Print Assumptions C61_only_own_children.

Example C61_ex : exists s, lives own (tidy own) sys0 s /\ visible s 0 1 = None /\ visible s 1 5 = None /\ visible s 1 6 = Some (owned 6 2).
Proof. exact tidy_run. Qed.

Theorem C61_changed_child_refuted : exists s rs, exec_all own sys0
    [Apply 0 (plain 1 0); Apply 0 (plain 2 0); Apply 1 (owned 5 1); UpdateByKey 1 5 3; Delete 1 (item0 5); Apply 1 (owned 5 2); Delete 0 (item0 1)] = Some (s, rs) /\
  Forall (fun r => r = RUnit) rs /\ visible s 1 5 = None /\ exists o, visible s 0 2 = Some o /\ listed o 1 (item0 5).
Proof. exact stale_link_run. Qed.
Print Assumptions C61_changed_child_refuted.

Theorem C61_grandchild_refuted : exists s rs, exec_all own sys0 [Apply 0 (plain 1 0); Apply 1 (owned 5 1); Apply 2 (owned 6 5); Delete 0 (item0 1)] = Some (s, rs) /\
  Forall (fun r => r = RUnit) rs /\ visible s 0 1 = None /\ visible s 1 5 = None /\ visible s 2 6 = Some (owned 6 5).
Proof. exact grandchild_run. Qed.
Print Assumptions C61_grandchild_refuted.

Theorem C61_after_restart_refuted : exists s1 rs s2, exec_all own sys0 [Apply 0 (plain 1 0); Apply 1 (owned 5 1)] = Some (s1, rs) /\ Forall (fun r => r = RUnit) rs /\
  exec (prog_of own (Delete 0 (item0 1))) (c_sys (restart (y_disk s1))) = Some (s2, RErr) /\
  visible s2 0 1 <> None /\ visible s2 1 5 <> None.
Proof. exact restart_run. Qed.
Print Assumptions C61_after_restart_refuted.

Theorem C61_unlinked_refuted : exists es s, runs calm mach0 es s /\ nth_error (c_tasks s) 1 = Some (Ret RErr) /\ nth_error (c_tasks s) 3 = Some (Ret RUnit) /\
  visible (c_sys s) 1 5 = Some (owned 5 1) /\ visible (c_sys s) 0 1 = None.
Proof. exact (ex_intro _ _ unlinked_run). Qed.
Print Assumptions C61_unlinked_refuted.

(** C62: who lists the objects and then applies the updates has what is stored. *)
Theorem C62_follows : forall owner es m h0 l0 s0 k s1 v objs h l s2,
  runs calm mach0 es m -> turns owner any_op h0 (c_sys (restart (y_disk (c_sys m)))) l0 s0 ->
  exec (prog_of owner (List k)) s0 = Some (s1, RList v objs) -> lookup k (y_stores s1) = Some h ->
  turns owner any_op h s1 l s2 ->
  forall n, lookup n (fold_left (follow v) (l ++ waiting s2 h) (listing objs)) = visible s2 k n.
Proof. exact watch_follows. Qed.
Print Assumptions C62_follows.

Example C62_ex : exists s1 objs s2 x y, exec (prog_of own (List 0)) sys0 = Some (s1, RList 0 objs) /\ lookup 0 (y_stores s1) = Some 0%nat /\
  turns own any_op 0 s1 [x; y] s2 /\ waiting s2 0 = [] /\ visible s2 0 1 = Some (mkObj (mkItem 1 1 None None) 9 0).
Proof. exact watch_run. Qed.

Theorem C62_overtaken_refuted : exists es s, runs calm mach0 es s /\ Forall (fun p => p = Ret RUnit) (c_tasks s) /\
  visible (c_sys s) 0 1 = None /\ lookup 1 (fold_left (follow 0) (waiting (c_sys s) 0) []) <> None.
Proof. exact (ex_intro _ _ overtake_run). Qed.
Print Assumptions C62_overtaken_refuted.

Theorem C62_two_watchers_refuted : exists s x y, turns own any_op 0 sys0 [x; y] s /\ waiting s 0 = [] /\ visible s 0 1 <> None /\ visible s 0 2 <> None /\
  lookup 2 (fold_left (follow 0) [x] []) = None /\ lookup 1 (fold_left (follow 0) [y] []) = None.
Proof. exact two_run. Qed.
Print Assumptions C62_two_watchers_refuted.

Theorem C62_full_waits : forall s es s' i h t v u c, runs (nobody_receives h) s es s' ->
  nth_error (c_tasks s) i = Some (Do (Send h v u) c) -> nth_error (y_heap (c_sys s)) h = Some t -> (max_updates <= length (t_queue t))%nat ->
  nth_error (c_tasks s') i = Some (Do (Send h v u) c).
Proof. exact full_waits. Qed.
Print Assumptions C62_full_waits.

Theorem C62_full_refuted : exists es s i, runs calm mach0 es s /\ visible (c_sys s) 0 101 <> None /\
  forall es' s', runs (nobody_receives 0) s es' s' -> forall r, nth_error (c_tasks s') i <> Some (Ret r).
Proof. destruct full_run as [s H]. exact (ex_intro _ _ (ex_intro _ s (ex_intro _ 101%nat H))). Qed.
Print Assumptions C62_full_refuted.
