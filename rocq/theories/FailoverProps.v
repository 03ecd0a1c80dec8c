(** Properties of changes of leader: theorems only. *)
From Verif Require Import ReplicationModel ReplicationSpec StorageSpec FailoverModel FailoverSpec FailoverProofs FailoverProgress FailoverClaims.

(** C64.  Through any number of changes of leader, restarts and losses of
    replicas, all replicas that take part hold beginnings of one log, the
    leader's, and nobody calls a record committed that another one lacks; if
    whoever is elected has all that a later participant has, and messages of the
    old leader do not arrive any more. *)
Theorem C64_one_log : forall g, members_ok g -> forall l y, In l (g_replicas g) -> fruns g (complete g) (begin g l) y ->
  exists H, holds (node y (y_leader y)) H
    /\ (forall i, takes_part g y i -> exists n, holds (node y i) (firstn n H))
    /\ forall i j, takes_part g y i -> takes_part g y j -> get_hw (node y i) <= get_leo (node y j).
Proof. exact one_log. Qed.
Print Assumptions C64_one_log.
Example C64_ex : members_ok (trio 3) /\ In 1 (g_replicas (trio 3)) /\ fruns (trio 3) (complete (trio 3)) (begin (trio 3) 1) lost_y
  /\ y_leader lost_y = 2 /\ takes_part (trio 3) lost_y 3 /\ get_leo (node lost_y 2) = 2 /\ get_leo (node lost_y 3) = 2.
Proof. exact one_log_ex. Qed.
(** A message of the old leader that arrives late: two replicas with different
    records at the same offset. *)
Theorem C64_late_message_refuted : exists g l y i, members_ok g /\ In l (g_replicas g) /\ fruns g (complete_but_late g) (begin g l) y
  /\ takes_part g y i /\ (let r := node y (y_leader y) in get_log_start r = 0 /\ get_leo r = 1)
  /\ (let r := node y i in get_log_start r = 0 /\ get_leo r = 1) /\ log_bytes (node y (y_leader y)) <> log_bytes (node y i).
Proof. exact late_refuted. Qed.
Print Assumptions C64_late_message_refuted.

(** C65.  What is committed stays: there is a beginning [P] of the log that
    covers everything any replica calls committed in [y]; all replicas have it,
    and all that take part in any later state have it too. *)
Theorem C65_committed_kept : forall g, members_ok g -> forall l y y', In l (g_replicas g) ->
  fruns g (complete g) (begin g l) y -> fruns g (complete g) y y' ->
  exists P e, chain 0 P e /\ (forall i, takes_part g y i -> get_hw (node y i) <= e)
    /\ (forall i, takes_part g y i -> exists t, holds (node y i) (P ++ t))
    /\ forall i, takes_part g y' i -> exists t, holds (node y' i) (P ++ t).
Proof. exact committed_kept. Qed.
Print Assumptions C65_committed_kept.
Example C65_ex : members_ok (trio 2) /\ fruns (trio 2) (complete (trio 2)) (begin (trio 2) 1) middle /\ fruns (trio 2) (complete (trio 2)) middle later
  /\ y_leader middle = 1 /\ get_hw (node middle 1) = 1 /\ y_leader later = 1 /\ get_leo (node later 1) = 2 /\ get_leo (node later 2) = 2
  /\ get_hw (node later 1) = 2 /\ log_bytes (node later 1) = log_bytes (node later 2).
Proof. exact trio_ex. Qed.
(** An old leader comes back with records its successor does not have: these are
    counted as the successor's, which commits a record that one replica lacks;
    when the old leader is elected again the committed record is gone. *)
Theorem C65_shorter_elected_refuted : exists g l y y', members_ok g /\ In l (g_replicas g)
  /\ fruns g (nothing_late g) (begin g l) y /\ fruns g (complete g) y y'
  /\ (let r := node y (y_leader y) in get_log_start r = 0 /\ get_leo r = 1 /\ get_hw r = 1)
  /\ (let r := node y' (y_leader y') in get_log_start r = 0 /\ get_leo r = 1)
  /\ takes_part g y (y_leader y') /\ log_bytes (node y (y_leader y)) <> log_bytes (node y (y_leader y'))
  /\ log_bytes (node y (y_leader y)) <> log_bytes (node y' (y_leader y')).
Proof. exact shorter_refuted. Qed.
Print Assumptions C65_shorter_elected_refuted.

(** C66.  After a change of leader: as long as a replica is lost nothing more is
    committed, whatever the others have. *)
Theorem C66_lost_blocks : forall g, members_ok g -> forall l y i e y', In l (g_replicas g) -> fruns g (complete g) (begin g l) y ->
  In i (g_replicas g) -> In i (y_lost y) -> fstep g y (Act e) y' ->
  get_hw (node y' (y_leader y')) = get_hw (node y (y_leader y)).
Proof. exact lost_blocks. Qed.
Print Assumptions C66_lost_blocks.
Example C66_ex : members_ok (trio 3) /\ fruns (trio 3) (complete (trio 3)) (begin (trio 3) 1) lost_y /\ In 1 (g_replicas (trio 3)) /\ In 1 (y_lost lost_y)
  /\ y_leader lost_y = 2 /\ get_leo (node lost_y 2) = 2 /\ get_leo (node lost_y 3) = 2 /\ get_hw (node lost_y 2) = 0.
Proof. exact lost_ex. Qed.
(** If no replica is lost and none knows a higher watermark than the leader, an
    exchange of messages alone copies the leader's whole log to all replicas and
    commits it. *)
Theorem C66_completes : forall g, members_ok g -> forall l y i0, In l (g_replicas g) -> fruns g (complete g) (begin g l) y ->
  (forall i, In i (g_replicas g) -> ~ In i (y_lost y)) -> (forall i, In i (g_replicas g) -> get_hw (node y i) <= get_hw (node y (y_leader y))) ->
  follower (led_by g (y_leader y)) i0 -> (forall i, follower (led_by g (y_leader y)) i -> accepts (led_by g (y_leader y)) i) ->
  (forall i, In i (g_replicas g) -> get_log_start (node y (y_leader y)) <= get_leo (node y i)) -> get_leo (node y (y_leader y)) < 2 ^ 31 ->
  exists s', runs (led_by g (y_leader y)) exchange (y_cluster y) s'
    /\ let y' := mkSystem (y_leader y) (y_lost y) s' in
       log_bytes (node y' (y_leader y)) = log_bytes (node y (y_leader y)) /\ get_hw (node y' (y_leader y)) = get_leo (node y (y_leader y))
       /\ forall i, In i (g_replicas g) -> get_leo (node y' i) = get_leo (node y (y_leader y)).
Proof. exact elected_completes. Qed.
Print Assumptions C66_completes.
Example C66_completes_ex : members_ok (trio 2) /\ fruns (trio 2) (complete (trio 2)) (begin (trio 2) 1) told_y
  /\ (forall i, In i (g_replicas (trio 2)) -> ~ In i (y_lost told_y))
  /\ (forall i, In i (g_replicas (trio 2)) -> get_hw (node told_y i) <= get_hw (node told_y (y_leader told_y)))
  /\ follower (led_by (trio 2) (y_leader told_y)) 1 /\ (forall i, follower (led_by (trio 2) (y_leader told_y)) i -> accepts (led_by (trio 2) (y_leader told_y)) i)
  /\ (forall i, In i (g_replicas (trio 2)) -> get_log_start (node told_y (y_leader told_y)) <= get_leo (node told_y i))
  /\ y_leader told_y = 2 /\ get_leo (node told_y 2) = 2 /\ get_hw (node told_y 2) = 1 /\ get_leo (node told_y 1) = 1.
Proof. exact told_ex. Qed.
(** Even when no replica is lost and all have the same log, a new leader that had
    not been told the watermark never commits anything again. *)
Theorem C66_elected_stuck_refuted : exists g l y, members_ok g /\ In l (g_replicas g) /\ fruns g (complete g) (begin g l) y /\ y_lost y = []
  /\ (forall i, In i (g_replicas g) -> get_leo (node y i) = 1) /\ get_hw (node y (y_leader y)) = 0
  /\ forall s', runs (led_by g (y_leader y)) exchange_or_produce (y_cluster y) s' ->
       get_hw (k_leader s') = 0 /\ forall i, k_follower s' i = k_follower (y_cluster y) i.
Proof. exact elected_stuck_refuted. Qed.
Print Assumptions C66_elected_stuck_refuted.
