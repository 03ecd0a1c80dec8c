(** Properties of replication: theorems only. *)
From Verif Require Import ReplicationModel ReplicationSpec StorageSpec RecordSpec StorageClaims ReplicationProofs ReplicationClaims.

(** C24.  The committed offset computed from the positions of the followers, of
    which [min_replica - 1], but at least one and at most all, must hold it. *)
Theorem C24_committed_offset : forall hw min_replica leos, 1 <= min_replica <= 65536 ->
  let n := Nat.max 1 (Nat.min (Z.to_nat (min_replica - 1)) (length leos)) in
  match compute_hw hw min_replica leos with
  | Some h => hw < h /\ largest_reached leos n h
  | None => (reached_by leos (hw + 1) < n)%nat
  end.
Proof. exact compute_hw_spec. Qed.
Print Assumptions C24_committed_offset.
Example C24_ex : compute_hw 2 3 [9; 4; 7] = Some 7 /\ largest_reached [9; 4; 7] 2 7 /\ compute_hw 7 3 [9; 4; 7] = None.
Proof.
  split; [reflexivity|]. split; [|reflexivity]. split; [vm_compute; constructor|].
  intros h' H. unfold reached_by. cbn [filter]. destruct (Z.leb_spec h' 9), (Z.leb_spec h' 4), (Z.leb_spec h' 7); cbn [length]; Lia.lia.
Qed.

(** C25.  Committed records are replicated: when a message can hold a segment,
    all logs are prefixes of one log [H], the leader's, and everything below the
    leader's watermark is at every follower. *)
Theorem C25_committed_replicated : forall p, params_ok p -> forall s, c_seg_max (p_conf p) <= p_max_bytes p -> reachable p s ->
  exists H, holds (k_leader s) H /\ 0 <= get_hw (k_leader s) <= get_leo (k_leader s)
    /\ forall i, follower p i ->
         (exists n, holds (k_follower s i) (firstn n H))
         /\ get_hw (k_leader s) <= get_leo (k_follower s i) /\ get_hw (k_follower s i) <= get_hw (k_leader s).
Proof. exact committed_replicated. Qed.
Print Assumptions C25_committed_replicated.
(** For messages of any size: the same offsets, with payloads possibly cut. *)
Theorem C25_any_message_size : forall p, params_ok p -> forall s, reachable p s ->
  exists H, holds (k_leader s) H /\ 0 <= get_hw (k_leader s) <= get_leo (k_leader s)
    /\ forall i, follower p i ->
         (exists n G, Forall2 shortened (firstn n H) G /\ holds (k_follower s i) G)
         /\ get_hw (k_leader s) <= get_leo (k_follower s i) /\ get_hw (k_follower s i) <= get_hw (k_leader s).
Proof. exact any_slice. Qed.
Print Assumptions C25_any_message_size.
(** They are cut: a committed batch of which a follower lacks the end. *)
Theorem C25_cut_refuted : exists p s i, params_ok p /\ reachable p s /\ follower p i
  /\ get_log_start (k_leader s) = get_log_start (k_follower s i)
  /\ get_leo (k_leader s) = get_leo (k_follower s i) /\ get_hw (k_leader s) = get_leo (k_leader s)
  /\ zlen (log_bytes (k_follower s i)) < zlen (log_bytes (k_leader s)).
Proof. exact cut_refuted. Qed.
Print Assumptions C25_cut_refuted.
(** A write at a follower that fails has stored nothing. *)
Theorem C25_follower_writes : forall p, params_ok p -> forall s i now m s', reachable p s -> step p s (Deliver i now m) s' ->
  let r := k_follower s i in let l := receive (s_records m) in
  match write_recordset (p_fconf p i) now r l false with
  | (r1, Some _) => r1 = r
  | (_, None) => True
  end.
Proof. exact follower_writes. Qed.
Print Assumptions C25_follower_writes.
Example C25_ex : params_ok (cut_p 1000) /\ c_seg_max (p_conf (cut_p 1000)) <= p_max_bytes (cut_p 1000) /\ reachable (cut_p 1000) (round2 1000 long)
  /\ follower (cut_p 1000) 2 /\ accepts (cut_p 1000) 2 /\ get_hw (k_leader (round2 1000 long)) = 1 /\ get_leo (k_follower (round2 1000 long) 2) = 1
  /\ log_bytes (k_follower (round2 1000 long) 2) = log_bytes (k_leader (round2 1000 long)).
Proof. exact whole_ex. Qed.

(** C26.  Nothing goes backwards. *)
Theorem C26_never_backwards : forall p, params_ok p -> forall s s', reachable p s -> runs p no_restart s s' -> not_behind p s s'.
Proof. exact not_backwards. Qed.
Print Assumptions C26_never_backwards.
(** With restarts of followers, log ends and the leader's watermark still do not. *)
Theorem C26_with_restarts : forall p, params_ok p -> forall s s', reachable p s -> runs p all_events s s' ->
  get_leo (k_leader s) <= get_leo (k_leader s') /\ get_hw (k_leader s) <= get_hw (k_leader s')
  /\ forall i, follower p i -> get_leo (k_follower s i) <= get_leo (k_follower s' i).
Proof. exact ends_kept. Qed.
Print Assumptions C26_with_restarts.
Example C26_ex : params_ok (cut_p 1000) /\ reachable (cut_p 1000) (round1 1000 long) /\ runs (cut_p 1000) no_restart (round1 1000 long) (round2 1000 long)
  /\ get_hw (k_leader (round1 1000 long)) = 0 /\ get_hw (k_leader (round2 1000 long)) = 1.
Proof. exact round2_runs. Qed.

(** C27.  Stale and duplicate messages: a message that does not start at the end
    of the log does not change it; a second delivery changes nothing; a message
    that was stored once is not stored again, whatever happens in between. *)
Theorem C27_stale : forall c now r m, rset_base_offset (receive (s_records m)) <> get_leo r ->
  log_bytes (deliver c now r m) = log_bytes r /\ get_leo (deliver c now r m) = get_leo r.
Proof. exact stale_ignored. Qed.
Print Assumptions C27_stale.
Theorem C27_twice : forall p, params_ok p -> forall s i now m s1 now' s2, reachable p s ->
  step p s (Deliver i now m) s1 -> step p s1 (Deliver i now' m) s2 ->
  log_bytes (k_follower s2 i) = log_bytes (k_follower s1 i) /\ get_leo (k_follower s2 i) = get_leo (k_follower s1 i).
Proof. exact twice. Qed.
Print Assumptions C27_twice.
Theorem C27_once : forall p, params_ok p -> forall s i now m s1 s2 now' s3, reachable p s -> step p s (Deliver i now m) s1 ->
  log_bytes (k_follower s1 i) <> log_bytes (k_follower s i) ->
  runs p all_events s1 s2 -> step p s2 (Deliver i now' m) s3 ->
  log_bytes (k_follower s3 i) = log_bytes (k_follower s2 i) /\ get_leo (k_follower s3 i) = get_leo (k_follower s2 i).
Proof. exact once. Qed.
Print Assumptions C27_once.
Example C27_ex : let p := cut_p 1000 in let s := round1 1000 long in let m := sent p 2 s in
  let s1 := do_deliver p 2 0 m s in let s2 := do_deliver p 2 5 m s1 in
  reachable p s /\ step p s (Deliver 2 0 m) s1 /\ step p s1 (Deliver 2 5 m) s2 /\ log_bytes (k_follower s1 2) <> log_bytes (k_follower s 2).
Proof. exact dup_ex. Qed.

(** C52.  Replication can always be completed: from every reachable state, an
    exchange of messages alone leads to every follower holding the whole log and
    all of it being committed, if followers accept the leader's batches and none
    needs records the leader has already removed. *)
Theorem C52_completes : forall p, params_ok p -> c_seg_max (p_conf p) <= p_max_bytes p ->
  forall s i0, reachable p s -> follower p i0 -> (forall i, follower p i -> accepts p i) ->
  (forall i, follower p i -> get_log_start (k_leader s) <= get_leo (k_follower s i)) -> get_leo (k_leader s) < 2 ^ 31 ->
  exists s', runs p exchange s s' /\ log_bytes (k_leader s') = log_bytes (k_leader s)
    /\ get_leo (k_leader s') = get_leo (k_leader s) /\ get_hw (k_leader s') = get_leo (k_leader s)
    /\ forall i, follower p i -> get_leo (k_follower s' i) = get_leo (k_leader s).
Proof. exact completes. Qed.
Print Assumptions C52_completes.
Example C52_ex : params_ok (cut_p 1000) /\ reachable (cut_p 1000) (round1 1000 long) /\ follower (cut_p 1000) 2 /\ accepts (cut_p 1000) 2
  /\ get_log_start (k_leader (round1 1000 long)) <= get_leo (k_follower (round1 1000 long) 2) < get_leo (k_leader (round1 1000 long)).
Proof. exact progress_ex. Qed.
(** A leader that starts again with a smaller watermark than its followers (its
    checkpoint is written with a delay) ignores them for ever. *)
Theorem C52_leader_behind_stuck : forall p s r s', params_ok p -> (exists i, follower p i) ->
  (forall i, follower p i -> get_hw r < get_hw (k_follower s i)) ->
  runs p exchange_or_produce (restarted_leader p s r) s' ->
  get_hw (k_leader s') = get_hw r /\ forall i, k_follower s' i = k_follower s i.
Proof. exact behind_stuck. Qed.
Print Assumptions C52_leader_behind_stuck.
Theorem C52_leader_restart_refuted : exists p s now k r, params_ok p /\ c_seg_max (p_conf p) <= p_max_bytes p /\ reachable p s
  /\ (exists i, follower p i) /\ 0 <= ckpt_value (m_base (r_active (k_leader s))) k <= get_hw (k_leader s)
  /\ exec (p_conf p) (k_leader s) (Restart now k) = Done r /\ get_hw r < get_leo r
  /\ forall s', runs p exchange_or_produce (restarted_leader p s r) s' ->
       get_hw (k_leader s') = get_hw r /\ forall i, k_follower s' i = k_follower s i.
Proof. exact restart_stuck_refuted. Qed.
Print Assumptions C52_leader_restart_refuted.
