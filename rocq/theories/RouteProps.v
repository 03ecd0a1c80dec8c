(** C107: a client goes to the server that the metadata name for a partition.
    C108: producers find the leader again, and their partitions do not hold each
    other up. *)
Require Import ZArith List Bool Lia.
Import ListNotations.
From Verif Require Import RouteModel RouteSpec RouteProofs RouteClaims.
Open Scope Z_scope.

Theorem C107_leader : forall loc u es p c, let w := run (start loc u) es in
  snd (whole (serial w p)) = Given c -> exists l, leads w p l /\ made_for (start loc u) es l c.
Proof. exact serial_routed. Qed.
Print Assumptions C107_leader.
Example C107_leader_case :
  let es := known ++ [Serial 6; Finish; Stop 201; ChangeParts [Mod 5 2]] in
  snd (whole (serial (run (start true all_up) es) 5)) = Given (mkConn 0 201 9).
Proof. vm_compute. reflexivity. Qed.

Theorem C107_stream : forall loc u es p sent c, let w := run (start loc u) es in
  snd (whole (stream w p sent)) = Given c -> exists l, leads w p l /\ made_for (start loc u) es l c.
Proof. exact stream_routed. Qed.
Print Assumptions C107_stream.
Example C107_stream_case :
  snd (whole (stream (run (start false all_up) known) 6 false)) = Given (mkConn 0 200 8) /\
  snd (whole (stream (run (start false all_up) (known ++ [Serial 5; Finish])) 5 false)) = Given (mkConn 0 100 7).
Proof. vm_compute. split; reflexivity. Qed.

Theorem C107_fresh : forall loc u es p w' c,
  whole (serial (run (start loc u) es) p) = (w', Given c) -> known_stale w' c = false.
Proof. exact serial_fresh. Qed.
Print Assumptions C107_fresh.
Example C107_fresh_case :
  let w := run (start false all_up) (known ++ [Serial 5; Finish; Overdue (mkConn 0 100 7)]) in
  snd (whole (serial w 5)) = Given (mkConn 1 100 7) /\ known_stale w (mkConn 0 100 7) = true.
Proof. vm_compute. split; reflexivity. Qed.

Theorem C107_shared : forall w p l w1 c es q, leads w p l -> whole (serial w p) = (w1, Given c) ->
  let w2 := run w1 es in leads w2 q l -> known_stale w2 c = false -> w_trying w2 = None ->
  serial w2 q = (w2, Given c).
Proof. exact serial_shared. Qed.
Print Assumptions C107_shared.
Example C107_shared_case :
  let w := run (start false all_up) known in
  let es := [Serial 6; Finish; ChangeParts [Mod 6 1]; Stream 5 false] in
  leads w 5 1 /\ snd (whole (serial w 5)) = Given (mkConn 0 100 7) /\
  let w2 := run (fst (whole (serial w 5))) es in
  leads w2 6 1 /\ known_stale w2 (mkConn 0 100 7) = false /\ w_trying w2 = None.
Proof. vm_compute. repeat split. Qed.

Theorem C107_reconnect : forall w p l a srv, up w p l a srv -> no_connection w l ->
  exists w' c, whole (serial w p) = (w', Given c) /\ n_addr c = a /\ n_server c = srv /\ alive w' c = true.
Proof. exact serial_reconnects. Qed.
Print Assumptions C107_reconnect.
Example C107_reconnect_case :
  let w := run (start true all_up)
    (known ++ [Serial 6; Finish; Stop 201; Noticed (mkConn 0 201 9); ChangeSpus [Mod 20 (mkSpu 2 200 (Some 202))]; Listen 202 30]) in
  up w 6 2 202 30 /\ no_connection w 2 /\ get 2 (w_pool w) = Some (mkConn 0 201 9).
Proof.
  split; [|split; [|reflexivity]].
  - split; [reflexivity|]. split; [exists (mkSpu 2 200 (Some 202)); split; reflexivity | split; reflexivity].
  - intros c H. vm_compute in H. inversion H. reflexivity.
Qed.

Theorem C107_unnoticed_refuted : exists es p l a srv w' c, let w := run (start false all_up) es in
  up w p l a srv /\ whole (serial w p) = (w', Given c) /\ alive w' c = false.
Proof. exact unnoticed. Qed.
Print Assumptions C107_unnoticed_refuted.
Example C107_unnoticed_refuted_case :
  snd (serial (run (start false all_up) (known ++ [Serial 5; Finish; Stop 100; Listen 100 17])) 5) = Given (mkConn 0 100 7).
Proof. vm_compute. reflexivity. Qed.

Theorem C107_moved_refuted : exists es p l a srv w' c, let w := run (start false all_up) es in
  up w p l a srv /\ whole (serial w p) = (w', Given c) /\ alive w' c = true /\ n_addr c <> a /\ n_server c <> srv.
Proof. exact moved. Qed.
Print Assumptions C107_moved_refuted.
Example C107_moved_refuted_case :
  snd (serial (run (start false all_up) (known ++ [Serial 5; Finish; Listen 300 12; ChangeSpus [Mod 10 (mkSpu 1 300 None)]])) 5)
  = Given (mkConn 0 100 7).
Proof. vm_compute. reflexivity. Qed.

Theorem C107_open : forall w p l a srv sent, up w p l a srv -> (no_connection w l \/ connected w l) ->
  exists w' c, open_consumer w p [] sent = (w', Given c) /\ alive w' c = true.
Proof. exact consumer_opens. Qed.
Print Assumptions C107_open.
Example C107_open_case :
  let w := run (start false all_up) (known ++ [Serial 5; Finish; Stop 100; Noticed (mkConn 0 100 7); Listen 100 17]) in
  up w 5 1 100 17 /\ no_connection w 1 /\ snd (open_consumer w 5 [] false) = Given (mkConn 1 100 17).
Proof.
  split; [|split; [|vm_compute; reflexivity]].
  - split; [reflexivity|]. split; [exists (mkSpu 1 100 None); split; reflexivity | split; reflexivity].
  - intros c H. vm_compute in H. inversion H. reflexivity.
Qed.

Theorem C107_second : forall w p l a srv sent, up w p l a srv -> silent w l ->
  exists w1 w' c, open_consumer w p [] sent = (w1, Failed SendFailed) /\
    open_consumer w1 p [] sent = (w', Given c) /\ alive w' c = true.
Proof. exact consumer_second. Qed.
Print Assumptions C107_second.
Example C107_second_case :
  let w := run (start false all_up) (known ++ [Serial 5; Finish; Stop 100; Listen 100 17]) in
  up w 5 1 100 17 /\ silent w 1.
Proof.
  split.
  - split; [reflexivity|]. split; [exists (mkSpu 1 100 None); split; reflexivity | split; reflexivity].
  - exists (mkConn 0 100 7). vm_compute. repeat split.
Qed.

Theorem C107_between_refuted : exists w es p l a srv w' c,
  up (run (fst (whole (serial w p))) es) p l a srv /\
  open_consumer w p es true = (w', Given c) /\ known_stale w' c = true /\ alive w' c = false.
Proof. exact between. Qed.
Print Assumptions C107_between_refuted.
Example C107_between_refuted_case :
  let w := run (start false all_up) (known ++ [Serial 6; Finish; Stop 200; Noticed (mkConn 0 200 8); Listen 200 18]) in
  snd (open_consumer w 5 [ChangeParts [Mod 5 2]] true) = Given (mkConn 0 200 8) /\
  snd (open_consumer w 6 [] true) = Given (mkConn 1 200 18).
Proof. vm_compute. split; reflexivity. Qed.

Theorem C107_stream_refuted : exists es p l a srv c, let w := run (start false all_up) es in
  up w p l a srv /\ known_stale w c = true /\ alive w c = false /\
  forall sents sent, stream (run w (map (Stream p) sents)) p sent = (w, if sent then Given c else Failed SendFailed).
Proof. exact stream_only. Qed.
Print Assumptions C107_stream_refuted.
Example C107_stream_refuted_case :
  let w := run (start false all_up) (known ++ [Serial 5; Finish; Stop 100; Noticed (mkConn 0 100 7); Listen 100 17]) in
  snd (stream w 5 false) = Failed SendFailed /\ snd (whole (serial w 5)) = Given (mkConn 1 100 17).
Proof. vm_compute. split; reflexivity. Qed.

Theorem C107_follows : forall w p l, w_watch w = true -> leads (step w (ChangeParts [Mod p l])) p l.
Proof. exact follows. Qed.
Print Assumptions C107_follows.
Example C107_follows_case :
  let w := run (start false all_up) (known ++ [Serial 5; Finish]) in
  w_watch w = true /\ leads w 5 1 /\
  snd (whole (serial (step w (ChangeParts [Mod 5 2])) 5)) = Given (mkConn 1 200 8).
Proof. vm_compute. repeat split. Qed.

Theorem C107_frozen_refuted : forall w es p, leader_of (run (step w Lost) es) p = leader_of w p.
Proof. exact frozen_leader. Qed.
Print Assumptions C107_frozen_refuted.
Example C107_frozen_refuted_case :
  let w := run (start false all_up) (known ++ [Lost; ChangeParts [Mod 5 2]; AllParts [(5, 2)]]) in
  snd (whole (serial w 5)) = Given (mkConn 0 100 7).
Proof. vm_compute. reflexivity. Qed.

Theorem C107_unknown : forall w p, w_parts w <> None -> get p (held (w_parts w)) = None ->
  serial w p = (w, Failed PartitionNotFound) /\ (forall sent, stream w p sent = (w, Failed PartitionNotFound)) /\
  topic_exists w p = Found false.
Proof. exact unknown_partition. Qed.
Print Assumptions C107_unknown.
Example C107_unknown_case :
  let w := run (start false all_up) (known ++ [ChangeParts [Del 5]]) in
  w_parts w <> None /\ get 5 (held (w_parts w)) = None /\ leads w 6 2.
Proof. vm_compute. repeat split. discriminate. Qed.

Theorem C107_unknown_spu : forall w p l, leads w p l -> w_spus w <> None -> with_id l (held (w_spus w)) = None -> no_connection w l -> w_trying w = None ->
  snd (serial w p) = Failed SpuNotFound.
Proof. exact unknown_spu. Qed.
Print Assumptions C107_unknown_spu.
Example C107_unknown_spu_case :
  let w := run (start false all_up) (known ++ [ChangeSpus [Del 10]]) in
  leads w 5 1 /\ w_spus w <> None /\ with_id 1 (held (w_spus w)) = None /\ w_pool w = [] /\ w_trying w = None.
Proof. vm_compute. repeat split. discriminate. Qed.

Theorem C107_topic : forall w p, topic_exists w p = Found true <-> exists l, leads w p l.
Proof. exact known_topic. Qed.
Print Assumptions C107_topic.
Example C107_topic_case : topic_exists (run (start false all_up) known) 6 = Found true.
Proof. reflexivity. Qed.

Theorem C107_no_topics_refuted : forall loc u es p, Forall topicless es ->
  topic_exists (run (start loc u) es) p = TimedOut.
Proof. exact no_topics. Qed.
Print Assumptions C107_no_topics_refuted.
Example C107_no_topics_refuted_case : Forall topicless [AllSpus two; AllParts []; ChangeParts [Del 5]].
Proof. repeat constructor. cbn. intros k a [H | []]. discriminate. Qed.

Theorem C107_last_topic_refuted : forall w p l, leads w p l -> leads (step w (AllParts [])) p l.
Proof. exact last_topic. Qed.
Print Assumptions C107_last_topic_refuted.
Example C107_last_topic_refuted_case : leads (run (start false all_up) known) 5 1.
Proof. reflexivity. Qed.

Theorem C107_held_refuted : forall w a p, w_trying w = Some a -> (exists l, leads w p l) ->
  serial w p = (w, Held) /\ forall sent, stream w p sent = (w, Held).
Proof. exact pool_held. Qed.
Print Assumptions C107_held_refuted.
Example C107_held_refuted_case :
  let w := run (start false all_up) (known ++ [Serial 5; Finish; Serial 6]) in
  w_trying w = Some (mkAttempt 2 200) /\ leads w 5 1 /\ get 1 (w_pool w) = Some (mkConn 0 100 7) /\ alive w (mkConn 0 100 7) = true.
Proof. vm_compute. repeat split. Qed.

Theorem C108_reconnect : forall before es w p w0 l a srv, reconnect w p before = (w0, None) ->
  up (run w0 es) p l a srv -> no_connection (run w0 es) l ->
  exists w' c, reconnect w p (before ++ [es]) = (w', Some c) /\ n_addr c = a /\ n_server c = srv /\ alive w' c = true.
Proof. exact reconnect_up. Qed.
Print Assumptions C108_reconnect.
Example C108_reconnect_case :
  let w := run (start false all_up) known in
  let before := [[Stop 100]; [Stop 200]] in
  snd (reconnect w 5 before) = None /\
  let w1 := run (fst (reconnect w 5 before)) [ChangeParts [Mod 5 2]; Listen 200 18] in
  up w1 5 2 200 18 /\ no_connection w1 2.
Proof.
  split; [reflexivity|]. split.
  - split; [reflexivity|]. split; [exists (mkSpu 2 200 (Some 201)); split; reflexivity | split; reflexivity].
  - intros c H. vm_compute in H. discriminate.
Qed.

Theorem C108_returns : forall ess w p w' c, reconnect w p ess = (w', Some c) ->
  exists w1, whole (serial w1 p) = (w', Given c).
Proof. exact reconnect_found. Qed.
Print Assumptions C108_returns.
Example C108_returns_case :
  snd (reconnect (start false all_up) 5 [[]; known; []]) = Some (mkConn 0 100 7).
Proof. vm_compute. reflexivity. Qed.

Theorem C108_deleted_refuted : forall ess w p, get p (held (w_parts w)) = None -> Forall (Forall (no_news p)) ess ->
  snd (reconnect w p ess) = None.
Proof. exact reconnect_gone. Qed.
Print Assumptions C108_deleted_refuted.
Example C108_deleted_refuted_case :
  let w := run (start false all_up) (known ++ [Serial 5; Finish; ChangeParts [Del 5]]) in
  get 5 (held (w_parts w)) = None /\ Forall (Forall (no_news 5)) [[]; [AllParts [(6, 1)]; Finish]; [ChangeParts [Mod 6 2]]].
Proof.
  split; [reflexivity|]. repeat constructor; try exact I. cbn. intros k a [H | []]. inversion H. discriminate.
Qed.

Theorem C108_room : forall t p fresh, t_holder t = Nobody -> queued t p < t_size t ->
  snd (topic_step t (Push p fresh)) = true /\ t_holder (fst (topic_step t (Push p fresh))) = Nobody /\
  (forall q, queued (fst (topic_step t (Push p fresh))) q = if q =? p then (if fresh || (queued t p =? 0) then queued t p + 1 else queued t p) else queued t q).
Proof. exact push_room. Qed.
Print Assumptions C108_room.
Example C108_room_case : let t := mkTopic 2 [(0, 1); (1, 2)] Nobody in t_holder t = Nobody /\ queued t 0 < t_size t.
Proof. vm_compute. split; reflexivity. Qed.

Theorem C108_full_refuted : forall t p fresh es, t_holder t = Nobody -> t_size t <= queued t p -> Forall (keeps p) es ->
  let t' := topic_run (fst (topic_step t (Push p fresh))) es in
  snd (topic_step t (Push p fresh)) = false /\
  (forall q fresh', snd (topic_step t' (Push q fresh')) = false) /\ snd (topic_step t' Flush) = false.
Proof. exact push_full. Qed.
Print Assumptions C108_full_refuted.
Example C108_full_refuted_case :
  let t := mkTopic 2 [(0, 0); (1, 2)] Nobody in
  t_holder t = Nobody /\ t_size t <= queued t 1 /\ Forall (keeps 1) [Push 0 true; Sent 0 1; Flushed true; Push 0 false].
Proof. split; [reflexivity|]. split; [vm_compute; discriminate|]. repeat constructor. cbn. discriminate. Qed.

Theorem C108_released : forall t p n, t_holder t = Pushing p -> Z.max 0 (queued t p - Z.max 0 n) < t_size t ->
  snd (topic_step t (Sent p n)) = true /\ t_holder (fst (topic_step t (Sent p n))) = Nobody /\
  queued (fst (topic_step t (Sent p n))) p = Z.max 0 (queued t p - Z.max 0 n) + 1.
Proof. exact push_released. Qed.
Print Assumptions C108_released.
Example C108_released_case :
  let t := mkTopic 2 [(0, 0); (1, 2)] (Pushing 1) in
  t_holder t = Pushing 1 /\ Z.max 0 (queued t 1 - Z.max 0 1) < t_size t.
Proof. vm_compute. split; reflexivity. Qed.

Theorem C108_flush : forall t, t_holder t = Nobody -> t_queue t <> [] ->
  let t' := topic_run t (Flush :: map (fun _ => Flushed true) (t_queue t)) in
  t_holder t' = Nobody /\ (forall p, queued t' p = 0).
Proof. exact flush_empties. Qed.
Print Assumptions C108_flush.
Example C108_flush_case :
  let t := mkTopic 2 [(0, 1); (1, 2)] Nobody in t_holder t = Nobody /\ t_queue t <> [] /\ queued t 1 = 2.
Proof. vm_compute. repeat split. discriminate. Qed.

Theorem C108_flush_failed : forall t p ps, t_holder t = Flushing (p :: ps) ->
  snd (topic_step t (Flushed false)) = true /\ t_holder (fst (topic_step t (Flushed false))) = Nobody /\
  (forall q, queued (fst (topic_step t (Flushed false))) q = if q =? p then 0 else queued t q).
Proof. exact flush_failed. Qed.
Print Assumptions C108_flush_failed.
Example C108_flush_failed_case : let t := fst (topic_step (mkTopic 2 [(0, 1); (1, 2)] Nobody) Flush) in t_holder t = Flushing [0; 1] /\ queued t 1 = 2.
Proof. vm_compute. split; reflexivity. Qed.

Theorem C108_flush_refuted : forall t es, t_holder t = Nobody -> t_queue t <> [] -> Forall unflushed es ->
  let t' := topic_run (fst (topic_step t Flush)) es in
  snd (topic_step t Flush) = false /\ t_holder t' = Flushing (map fst (t_queue t)) /\
  (forall q fresh, snd (topic_step t' (Push q fresh)) = false).
Proof. exact flush_held. Qed.
Print Assumptions C108_flush_refuted.
Example C108_flush_refuted_case :
  let t := mkTopic 2 [(0, 0); (1, 0)] Nobody in
  t_holder t = Nobody /\ t_queue t <> [] /\ Forall unflushed [Push 0 true; Sent 0 1; Sent 1 1] /\ (forall p, queued t p = 0).
Proof.
  split; [reflexivity|]. split; [discriminate|]. split; [repeat constructor|].
  intros p. unfold queued. cbn. destruct (p =? 0); [reflexivity|]. destruct (p =? 1); reflexivity.
Qed.
