(** C100, C101: stored consumer offsets of a cluster. *)
Require Import List. Import ListNotations.
From Verif Require Import Base KeepModel KeepSpec KeepProofs KeepClaims.

(** C100: the leader of the offsets answers a request for them with exactly those that
    were stored last and not removed since, that are asked for, and whose replica it
    knows; each once. *)
Theorem C100_list : forall l s i fr fc, orderly start l s -> leads s i ->
  exists ans, snd (fetch i fr fc s) = Some ans /\ NoDup (map fst ans)
    /\ forall k v, In (k, v) ans <-> holds (y_hist s) k v /\ wanted fr (fst k) /\ wanted fc (snd k) /\ knows s i (fst k).
Proof. exact fetch_list. Qed.
Print Assumptions C100_list.
Example C100_list_ex : exists s, orderly start ex_moves s /\ leads s 1 /\ snd (fetch 1 (Some 7) None s) = Some [((7, 4), 12); ((7, 3), 10)]
  /\ snd (fetch 1 None (Some 3) s) = Some [((7, 3), 10)].
Proof. destruct ex_reached as (s & O & L & _ & _ & A & B & _). exists s. auto. Qed.

(** C100: an SPU that does not lead them gives no answer. *)
Theorem C100_other : forall s i fr fc, ~ leads s i -> fetch i fr fc s = (s, None).
Proof. exact fetch_other. Qed.
Print Assumptions C100_other.
Example C100_other_ex : ~ leads start 1.
Proof. intros H. apply H. reflexivity. Qed.

(** C100: a commit that is confirmed stored its offset, for the consumer and the
    replica of the stream, and did nothing else. *)
Theorem C100_commit : forall n v to ok lost s s' w, commit n v to ok lost s = (s', Done w) ->
  w = v /\ exists x c, find_session n (y_sessions s) = Some x /\ n_consumer x = Some c /\ y_hist s' = Stored (n_replica x, c) v :: y_hist s.
Proof. exact commit_done. Qed.
Print Assumptions C100_commit.

(** C100: it is confirmed if the stream has a consumer and the leader is reached,
    at whichever SPU the stream is. *)
Theorem C100_reaches : forall n v to s x c, find_session n (y_sessions s) = Some x -> n_consumer x = Some c ->
  leads s (n_spu x) \/ (exists j, to = Some j /\ leads s j) -> snd (commit n v to true false s) = Done v.
Proof. exact commit_reaches. Qed.
Print Assumptions C100_reaches.
Example C100_reaches_ex : exists s, orderly start ex_moves s /\ leads s 1 /\ snd (commit 0 11 (Some 1) true false s) = Done 11
  /\ snd (commit 0 11 (Some 2) true false s) = NotLeader.
Proof. destruct ex_reached as (s & O & L & _ & _ & _ & _ & A & B). exists s. auto. Qed.

(** C100: a commit that does not reach the leader is refused and changes nothing. *)
Theorem C100_unreached : forall n v to ok lost s x, find_session n (y_sessions s) = Some x -> ~ leads s (n_spu x) ->
  (forall j, to = Some j -> ~ leads s j) -> fst (commit n v to ok lost s) = s /\ forall w, snd (commit n v to ok lost s) <> Done w.
Proof. exact commit_unreached. Qed.
Print Assumptions C100_unreached.
Example C100_unreached_ex : exists s, run start [Open 0 2 7 (Some 3)] = Some s /\ find_session 0 (y_sessions s) = Some (mkSession 2 7 (Some 3))
  /\ ~ leads s 2 /\ commit 0 5 (Some 1) true false s = (s, NotLeader).
Proof. eexists. split; [reflexivity|]. split; [reflexivity|]. split; [intros H; apply H; reflexivity|reflexivity]. Qed.

(** C100: a commit that is refused stored nothing, unless the answer was lost or the
    flush after it failed. *)
Theorem C100_refused : forall n v to ok s s' a, commit n v to ok false s = (s', a) -> (forall w, a <> Done w) -> y_hist s' = y_hist s.
Proof. exact commit_refused. Qed.
Print Assumptions C100_refused.

(** C100: removing an offset removes it, at the leader. *)
Theorem C100_remove : forall i lost ok k s s' w, remove i ok lost k s = (s', Done w) -> y_hist s' = Removed k :: y_hist s.
Proof. exact remove_done. Qed.
Print Assumptions C100_remove.
Theorem C100_removes : forall i k s, leads s i -> snd (remove i true false k s) = Done 0.
Proof. exact remove_reaches. Qed.
Print Assumptions C100_removes.

(** C100: nothing else does anything to the offset of a consumer: only commits of its
    streams, its removal, and messages to the leader that say the replica is gone. *)
Theorem C100_only : forall s m s', step s m = Some s' -> exists a, y_hist s' = a ++ y_hist s
  /\ forall e k, In e a -> about e k ->
       (exists n v to ok lost x, m = Commit n v to ok lost /\ find_session n (y_sessions s) = Some x /\ n_replica x = fst k /\ n_consumer x = Some (snd k))
       \/ (exists i ok lost, m = Remove i ok lost k) \/ (exists i m' f, m = Receive i m' f /\ ~ silent (fst k) m' /\ leads s i).
Proof. exact step_hist. Qed.
Print Assumptions C100_only.

(** C100: so what a consumer committed last is what it gets later, from whichever SPU
    leads then, through restarts and changes of the leader. *)
Theorem C100_next : forall l s1 n v to ok lost s2 w x c l2 s3 a i,
  orderly start l s1 -> find_session n (y_sessions s1) = Some x -> n_consumer x = Some c ->
  commit n v to ok lost s1 = (s2, Done w) ->
  orderly s2 l2 s3 -> y_hist s3 = a ++ y_hist s2 -> Forall (fun e => ~ about e (n_replica x, c)) a ->
  leads s3 i -> knows s3 i (n_replica x) -> snd (fetch i (Some (n_replica x)) (Some c) s3) = Some [((n_replica x, c), v)].
Proof. exact next_fetch. Qed.
Print Assumptions C100_next.
Example C100_next_ex : exists s, orderly start (ex_moves ++ [Lead 2; Restart 1; Lead 1; Receive 1 (All [(7, up)]) []; Remove 1 true false (7, 4)]) s
  /\ snd (fetch 1 (Some 7) (Some 3) s) = Some [((7, 3), 10)] /\ snd (fetch 1 (Some 7) (Some 4) s) = Some [].
Proof. apply by_go. vm_compute. auto. Qed.

(** C100: a stream that was closed, or whose SPU restarted, does not commit. *)
Theorem C100_closed : forall s n s' v to ok lost, step s (Close n) = Some s' -> commit n v to ok lost s' = (s', NoSession).
Proof. exact closed. Qed.
Print Assumptions C100_closed.
Theorem C100_ended : forall l s n x s' v to ok lost, run start l = Some s -> find_session n (y_sessions s) = Some x ->
  step s (Restart (n_spu x)) = Some s' -> commit n v to ok lost s' = (s', NoSession).
Proof. exact ended. Qed.
Print Assumptions C100_ended.

(** C100: an SPU that led, does no more and leads again without a restart in between
    answers with the offsets of the first time. *)
Theorem C100_again_refuted : exists s, run start ex_again = Some s /\ leads s 1 /\ knows s 1 7 /\ holds (y_hist s) (7, 3) 20
  /\ snd (fetch 1 (Some 7) (Some 3) s) = Some [((7, 3), 10)].
Proof. exact again. Qed.
Print Assumptions C100_again_refuted.

(** C101: when the leader of the offsets is told that a replica is gone, all its
    offsets are removed. *)
Theorem C101_gone : forall s i m r k fails v, leads s i -> told_gone (p_store (y_spu s i)) r m -> Forall (fun x => x = None) fails -> fst k = r ->
  ~ holds (y_hist (receive i m fails s)) k v.
Proof. exact gone_none. Qed.
Print Assumptions C101_gone.
Theorem C101_fetch : forall l s i m r fails fr fc, orderly start l s -> leads s i -> told_gone (p_store (y_spu s i)) r m -> Forall (fun x => x = None) fails ->
  forall k v ans, snd (fetch i fr fc (receive i m fails s)) = Some ans -> In (k, v) ans -> fst k <> r.
Proof. exact gone_fetch. Qed.
Print Assumptions C101_fetch.
Example C101_gone_ex : told_gone [(8, up); (7, up)] 7 (All [(8, up)]) /\ told_gone [(8, up); (7, up)] 7 ex_deleted
  /\ told_gone [(8, up); (7, up)] 7 (Changes [(true, (7, going))])
  /\ exists s, orderly start (ex_moves ++ [Receive 1 ex_deleted []; Receive 1 ex_created []]) s /\ snd (fetch 1 (Some 7) None s) = Some [].
Proof.
  split; [apply gone_left; [discriminate|simpl; auto|simpl; intros [H|[]]; discriminate]|].
  split; [apply (gone_deleted _ 7 [] going []); [intros []|simpl; auto]|].
  split; [apply (gone_marked _ 7 [] going []); [intros []|reflexivity|discriminate]|].
  apply by_go. vm_compute. auto.
Qed.

(** C101: the offsets of a replica of which a message says nothing of the kind stay. *)
Theorem C101_silent : forall s i m fails k v, silent (fst k) m -> (holds (y_hist (receive i m fails s)) k v <-> holds (y_hist s) k v).
Proof. exact silent_keeps. Qed.
Print Assumptions C101_silent.
Example C101_silent_ex : silent 8 ex_deleted /\ silent 7 (All [(7, up)]) /\ ~ silent 7 ex_deleted.
Proof.
  split; [intros u y [H|[]]; discriminate|]. split; [right; split; [left; reflexivity|intros y [H|[]]; injection H as <-; reflexivity]|].
  intros H. destruct (H false going (or_introl eq_refl)). discriminate.
Qed.

(** C101: an SPU knows the replicas of the last list of all that it got, with the
    changes since; after a restart, none. *)
Theorem C101_knows : forall s i l fails r, l <> [] -> (knows (receive i (All l) fails s) i r <-> In r (map fst l)).
Proof. exact knows_all. Qed.
Print Assumptions C101_knows.
Theorem C101_knows_changes : forall s i l fails r, knows (receive i (Changes l) fails s) i r <-> told r l (knows s i r).
Proof. exact knows_changes. Qed.
Print Assumptions C101_knows_changes.
Theorem C101_knows_none : forall s i s', step s (Restart i) = Some s' -> forall r, ~ knows s' i r.
Proof. exact knows_not. Qed.
Print Assumptions C101_knows_none.

(** C101: they stay as well if it is not the leader that is told. *)
Theorem C101_other : forall s i m fails, ~ leads s i -> y_hist (receive i m fails s) = y_hist s.
Proof. exact other_keeps. Qed.
Print Assumptions C101_other.

(** C101: a topic that is deleted and created again does not start without offsets if
    a stream of the deleted topic is still there and commits, *)
Theorem C101_late_refuted : exists s, orderly start (ex_before ++ [Receive 1 ex_deleted []; Commit 0 11 None true false; Receive 1 ex_created []]) s
  /\ leads s 1 /\ snd (fetch 1 (Some 7) (Some 3) s) = Some [((7, 3), 11)].
Proof. exact late. Qed.
Print Assumptions C101_late_refuted.
(** if the leader of the offsets was down when it was deleted, *)
Theorem C101_down_refuted : exists s, orderly start (ex_before ++ [Restart 1; Lead 1; Receive 1 (All [(8, up)]) []; Receive 1 ex_created []]) s
  /\ leads s 1 /\ snd (fetch 1 (Some 7) (Some 3) s) = Some [((7, 3), 10)].
Proof. exact down. Qed.
Print Assumptions C101_down_refuted.
(** or if removing one of the offsets failed. *)
Theorem C101_failing_refuted : exists s, run start (ex_two ++ [Receive 1 ex_deleted [Some 0%nat]; Receive 1 ex_created []]) = Some s
  /\ leads s 1 /\ snd (fetch 1 (Some 7) (Some 3) s) = Some [((7, 3), 10)].
Proof. exact failing. Qed.
Print Assumptions C101_failing_refuted.
