(** Claims C50, C51, C55 and C56: a shared connection. *)
From Coq Require Import Lia.
From Verif Require Import MuxModel MuxSpec MuxProofs.

(** * C51: the version of a request *)

(** The chosen version is one that both sides support, and the highest. *)
Theorem C51_chosen : forall table key lo hi v, proper table -> lo <= hi -> lookup_version table key lo hi = Some v ->
  lo <= v <= hi /\ supports table (wrap_s 16 key) v
  /\ forall v', lo <= v' <= hi -> supports table (wrap_s 16 key) v' -> v' <= v.
Proof. exact version_chosen. Qed.
Print Assumptions C51_chosen.

(** None is chosen exactly if there is no version that both support. *)
Theorem C51_none : forall table key lo hi, proper table -> lo <= hi ->
  (lookup_version table key lo hi = None <-> forall v, lo <= v <= hi -> ~ supports table (wrap_s 16 key) v).
Proof. exact version_none. Qed.
Print Assumptions C51_none.

(** If the server lists a key more than once, the version still lies in the
    request's range, and below the top of a range that overlaps it. *)
Theorem C51_any : forall table key lo hi v, lookup_version table key lo hi = Some v ->
  exists e, In e table /\ v_key e = wrap_s 16 key /\ lo <= v_max e /\ v_min e <= hi /\ v = Z.min hi (v_max e).
Proof. exact lookup_some. Qed.
Print Assumptions C51_any.

(** The request is sent with the chosen version. *)
Theorem C51_sent : forall table key lo hi default v, lookup_version table key lo hi = Some v ->
  header_version default (lookup_version table key lo hi) = v.
Proof. exact sent_version. Qed.
Print Assumptions C51_sent.

(** If there is none, it is sent all the same, with a version that the server
    does not support. *)
Theorem C51_sent_refuted : exists table key lo hi default, proper table /\ lo <= default <= hi
  /\ lookup_version table key lo hi = None
  /\ ~ supports table (wrap_s 16 key) (header_version default (lookup_version table key lo hi)).
Proof. exact unsupported_sent. Qed.
Print Assumptions C51_sent_refuted.

Example C51_case : proper [mkV 18 5 10; mkV 1002 4 7] /\ lookup_version [mkV 18 5 10; mkV 1002 4 7] 1002 3 9 = Some 7
  /\ lookup_version [mkV 18 5 10; mkV 1002 4 7] 18 0 6 = Some 6 /\ lookup_version [mkV 18 5 10; mkV 1002 4 7] 18 11 12 = None.
Proof.
  split; [|repeat split; reflexivity]. split; [repeat constructor; cbn; intuition lia|].
  intros e [<-|[<-|[]]]; cbn; lia.
Qed.

(** * C50: responses reach the request they answer *)

(** What a request was given came with its id. *)
Theorem C50_right : forall (B : Type) (s : mux B) r b, runs anything s -> In b (given s r) -> In (q_id (x_reqs s r), b) (x_frames s).
Proof. exact @responses_right. Qed.
Print Assumptions C50_right.

(** Different requests have different ids, up to 2^32 requests. *)
Theorem C50_ids : forall (B : Type) (s : mux B) r r', runs anything s -> few s -> made s r -> made s r' -> r <> r' ->
  q_id (x_reqs s r) <> q_id (x_reqs s r').
Proof. exact @ids_unique. Qed.
Print Assumptions C50_ids.

(** A frame is nothing to a request with another id. *)
Theorem C50_only : forall (B : Type) (s : mux B) i b s' r, runs anything s -> mstep s (Frame i b) = Some s' ->
  q_id (x_reqs s r) <> i -> x_reqs s' r = x_reqs s r.
Proof. exact @frame_only. Qed.
Print Assumptions C50_only.

(** An open stream has been given what came with its id, in order, except for
    what is in its queue, and the one that waits for room there. *)
Theorem C50_stream : forall (B : Type) (s : mux B) r, runs answers s -> few s -> q_at (x_reqs s r) = QStream ->
  came s (q_id (x_reqs s r)) = somes (q_got (x_reqs s r)) ++ somes (q_queue (x_reqs s r)) ++ held_back s r.
Proof. exact @stream_exact. Qed.
Print Assumptions C50_stream.

(** A stream is told at most once that the connection was closed, after all that
    it was given, and only if that is so. *)
Theorem C50_ends : forall (B : Type) (s : mux B) r, runs anything s ->
  exists l, q_got (x_reqs s r) ++ q_queue (x_reqs s r) = map Some l
    \/ q_got (x_reqs s r) ++ q_queue (x_reqs s r) = map Some l ++ [None] /\ ~ is_open s.
Proof. exact @stream_ends. Qed.
Print Assumptions C50_ends.

(** A request that awaits its response is not woken before the response came,
    and returns it after that. *)
Theorem C50_not_before : forall (B : Type) (s : mux B) r, runs answers s -> few s -> is_open s -> q_at (x_reqs s r) = QWaiting ->
  came s (q_id (x_reqs s r)) = [] -> mstep s (Notified r) = None.
Proof. exact @not_before. Qed.
Print Assumptions C50_not_before.
Theorem C50_answered : forall (B : Type) (s : mux B) r l b, runs answers s -> few s -> x_disp s = DIdle -> q_at (x_reqs s r) = QWaiting ->
  came s (q_id (x_reqs s r)) = l ++ [b] ->
  exists s', mexec s [Notified r; Finish r] = Some s' /\ q_at (x_reqs s' r) = QDone (Response b).
Proof. exact @answered. Qed.
Print Assumptions C50_answered.

(** It fails because the connection was closed only if that is so. *)
Theorem C50_closed : forall (B : Type) (s : mux B) r, runs anything s -> q_at (x_reqs s r) = QDone Closed -> ~ is_open s.
Proof. exact @closed_closed. Qed.
Print Assumptions C50_closed.

(** But the response is lost if the connection closes before the request runs
    again. *)
Theorem C50_lost_refuted : exists (s s' : mux Z) r b l, runs answers s /\ few s
  /\ q_at (x_reqs s r) = QWaiting /\ came s (q_id (x_reqs s r)) = [b]
  /\ mexec s l = Some s' /\ q_at (x_reqs s' r) = QDone Closed.
Proof. exact lost_response. Qed.
Print Assumptions C50_lost_refuted.

(** And after 2^32 requests, what came for an open stream is returned to a
    request that was not even sent when it came. *)
Theorem C50_wrap_refuted : forall (B : Type) (b : B), exists s0 s1 s2 r0 r1,
  runs answers s0 /\ q_at (x_reqs s0 r0) = QStream /\ In (q_id (x_reqs s0 r0), r0) (x_sent s0) /\ (forall i, ~ In (i, r1) (x_sent s0))
  /\ mstep s0 (Frame (q_id (x_reqs s0 r0)) b) = Some s1
  /\ mexec s1 [Send r1; Notified r1; Finish r1] = Some s2
  /\ q_at (x_reqs s2 r1) = QDone (Response b) /\ x_reqs s2 r0 = x_reqs s0 r0.
Proof. exact @wrapped. Qed.
Print Assumptions C50_wrap_refuted.

(** A stream and a request at the same time: two responses for the stream, one of
    which waits, and one for the request. *)
Example C50_case : exists s, runs answers s /\ few s /\ x_disp s = DIdle
  /\ q_at (x_reqs s 0%nat) = QStream /\ q_at (x_reqs s 1%nat) = QWaiting
  /\ x_frames s = [(1, 7); (2, 8); (1, 9)] /\ q_got (x_reqs s 0%nat) = [Some 7] /\ q_queue (x_reqs s 0%nat) = [Some 9]
  /\ came s (q_id (x_reqs s 1%nat)) = [] ++ [8].
Proof. exact both_case. Qed.
Example C50_waiting_case : exists s : mux Z, runs answers s /\ few s /\ is_open s /\ q_at (x_reqs s 1%nat) = QWaiting /\ came s (q_id (x_reqs s 1%nat)) = [].
Proof. exact waiting_case. Qed.

(** * C55: requests do not hold each other up *)

(** As long as every stream has room in its queue, the dispatcher frees the lock
    by itself, and then every request can go on. *)
Theorem C55_free : forall (B : Type) (s : mux B), runs anything s -> (forall r, ~ full s r) ->
  exists l s', (forall a, In a l -> of_dispatcher a) /\ mexec s l = Some s' /\ unlocked s' = true.
Proof. exact @lock_free. Qed.
Print Assumptions C55_free.
Theorem C55_goes_on : forall (B : Type) (s : mux B) r, unlocked s = true ->
  (q_at (x_reqs s r) = QHasId -> mstep s (Insert r) <> None)
  /\ (q_at (x_reqs s r) = QWoken -> mstep s (Finish r) <> None)
  /\ (q_at (x_reqs s r) = QTimingOut -> mstep s (FinishTimeout r) <> None).
Proof. exact @free_goes_on. Qed.
Print Assumptions C55_goes_on.

(** A response for a stream whose queue is full holds up all the others until
    the stream is read or dropped: no frame is read, no request is sent, answered
    or timed out. *)
Theorem C55_held : forall (B : Type) l (s s' : mux B) r b, runs anything s -> x_disp s = DBlocked r b -> full s r -> q_at (x_reqs s r) = QStream ->
  ~ In (Pop r) l -> ~ In (Cancel r) l -> mexec s l = Some s' ->
  x_disp s' = DBlocked r b /\ x_frames s' = x_frames s
  /\ forall r', ~ In (Cancel r') l -> waits (q_at (x_reqs s r')) -> waits (q_at (x_reqs s' r')).
Proof. exact @held. Qed.
Print Assumptions C55_held.
Theorem C55_refuted : exists (s : mux Z) r b r', runs answers s /\ few s /\ x_disp s = DBlocked r b /\ full s r /\ q_at (x_reqs s r) = QStream
  /\ r' <> r /\ waits (q_at (x_reqs s r'))
  /\ forall l s', ~ In (Pop r) l -> ~ In (Cancel r) l -> ~ In (Cancel r') l -> mexec s l = Some s' -> waits (q_at (x_reqs s' r')).
Proof. exact held_up. Qed.
Print Assumptions C55_refuted.

(** The dispatcher waits although the stream was read in the meantime. *)
Example C55_case : exists s : mux Z, runs answers s /\ (forall r, ~ full s r) /\ x_disp s = DBlocked 0%nat 9.
Proof. exact freed_case. Qed.

(** * C56: the end of the connection *)

(** When the connection ended, each stream that was registered has an error in
    what it was given, or will be given without any further step of others. *)
Theorem C56_stream : forall (B : Type) (s : mux B) i r s1 l s2, runs anything s -> In (i, r) (x_senders s) ->
  mstep s Close = Some s1 -> mexec s1 l = Some s2 -> x_disp s2 = DGone -> q_at (x_reqs s2 r) = QStream ->
  exists got, q_got (x_reqs s2 r) ++ q_queue (x_reqs s2 r) = map Some got ++ [None].
Proof. exact @told_stream. Qed.
Print Assumptions C56_stream.

(** Each request that awaited its response, or listened for it, returns. *)
Theorem C56_request : forall (B : Type) (s : mux B) i r s1 l s2, runs anything s -> In (i, r) (x_senders s) ->
  q_at (x_reqs s r) = QListening \/ q_at (x_reqs s r) = QWaiting ->
  mstep s Close = Some s1 -> mexec s1 l = Some s2 -> x_disp s2 = DGone -> q_at (x_reqs s2 r) = QWaiting ->
  exists s3 o, mexec s2 [Notified r; Finish r] = Some s3 /\ q_at (x_reqs s3 r) = QDone o.
Proof. exact @told_serial. Qed.
Print Assumptions C56_request.

(** After the end a stream whose queue is empty waits for ever, as long as the
    connection is not dropped. *)
Theorem C56_stuck : forall (B : Type) l (s s' : mux B) r, runs anything s -> x_disp s = DGone -> q_at (x_reqs s r) = QStream ->
  q_queue (x_reqs s r) = [] -> q_closed (x_reqs s r) = false -> ~ In (Cancel r) l -> mexec s l = Some s' -> x_reqs s' r = x_reqs s r.
Proof. exact @stuck. Qed.
Print Assumptions C56_stuck.

(** That is so for a stream that is opened after the end: it is never told; and
    for one that was told and asks again. *)
Theorem C56_late_refuted : exists (s : mux Z) r, runs answers s /\ x_disp s = DGone /\ q_at (x_reqs s r) = QStream
  /\ forall l s', ~ In (Cancel r) l -> mexec s l = Some s' -> q_at (x_reqs s' r) = QStream /\ q_got (x_reqs s' r) = [] /\ q_queue (x_reqs s' r) = [] /\ q_closed (x_reqs s' r) = false.
Proof. exact late_stream. Qed.
Print Assumptions C56_late_refuted.
Theorem C56_again_refuted : exists (s : mux Z) r, runs answers s /\ x_disp s = DGone /\ q_at (x_reqs s r) = QStream /\ q_got (x_reqs s r) = [None]
  /\ forall l s', ~ In (Cancel r) l -> mexec s l = Some s' -> mstep s' (Pop r) = None /\ q_closed (x_reqs s' r) = false.
Proof. exact told_once. Qed.
Print Assumptions C56_again_refuted.

(** And a request that was registered, but did not listen yet, is not woken: it
    can only time out. *)
Theorem C56_unready_refuted : exists (s : mux Z) r, runs answers s /\ In (q_id (x_reqs s r), r) (x_senders s)
  /\ exists s1 l s2, mstep s Close = Some s1 /\ mexec s1 l = Some s2 /\ x_disp s2 = DGone /\ q_at (x_reqs s2 r) = QWaiting
  /\ forall l' s3, mexec s2 l' = Some s3 -> q_at (x_reqs s3 r) = QWaiting \/ q_at (x_reqs s3 r) = QTimingOut
       \/ q_at (x_reqs s3 r) = QDone TimedOut \/ q_at (x_reqs s3 r) = QDone Cancelled.
Proof. exact unready_request. Qed.
Print Assumptions C56_unready_refuted.

Example C56_case : exists (s s1 s2 : mux Z) l, runs anything s /\ In (1, 0%nat) (x_senders s) /\ In (2, 1%nat) (x_senders s) /\ q_at (x_reqs s 1%nat) = QWaiting
  /\ mstep s Close = Some s1 /\ mexec s1 l = Some s2 /\ x_disp s2 = DGone /\ q_at (x_reqs s2 0%nat) = QStream /\ q_at (x_reqs s2 1%nat) = QWaiting.
Proof. exact end_case. Qed.
