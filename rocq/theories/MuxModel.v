(** The client side of a shared connection: requests that wait for their
    responses, and the dispatcher that hands them out.
    Source: crates/fluvio-socket/src/multiplexing.rs,
            crates/fluvio-socket/src/versioned.rs

    Tasks run at the same time.  The table of senders is guarded by a lock: what
    a task does while it holds the lock is one step, except where it waits for
    room in a queue while it holds it (the dispatcher, in send and close).
    Events are modelled as in EventModel, queues (async_channel) as bounded lists
    that can be closed from both sides.  The lock of a message is never held
    across a wait, so try_lock (189, 462) always succeeds.  Frames that are too
    short to hold an id (416) are left out.  The encoding of requests and
    responses is WireModel's subject: [B] are the bytes of a response. *)
From Verif Require Export Base.

(** * Versions *)

(** ApiVersionKey (crates/fluvio-protocol/src/link/versions.rs): what the server
    says it supports. *)
Record version_key := mkV { v_key : Z; v_min : Z; v_max : Z }.

(** Versions::lookup_version (versioned.rs 216-229); the request has key [key]
    (a u16, compared as i16) and supports versions [lo] to [hi]. *)
Fixpoint lookup_version (table : list version_key) (key lo hi : Z) : option Z :=
  match table with
  | [] => None
  | v :: table' =>
      if v_key v =? wrap_s 16 key then
        if (v_max v >=? lo) && (v_min v <=? hi) then Some (Z.min hi (v_max v))
        else lookup_version table' key lo hi
      else lookup_version table' key lo hi
  end.
(** new_request (versioned.rs 351-364) and RequestMessage::new_request
    (crates/fluvio-protocol/src/api/request.rs): the version in the header; it is
    the request's default version if none was found. *)
Definition header_version (default : Z) (found : option Z) : Z :=
  match found with Some v => v | None => default end.

(** * The connection *)

Notation task := nat.
Section Mux.
Context {B : Type}.

(** SharedSender (48-53): send_and_receive waits for one response (Serial),
    create_stream for any number, in a queue of a given length. *)
Inductive qkind := Serial | Queue (cap : nat).
Inductive outcome := Response (b : B) | Closed | TimedOut | Cancelled | SendFailed.
(** Where a request is: not yet made; has its id; is in the table of senders;
    (Serial) its listener is registered; was sent and awaits; was notified, or
    the timer fired, and it waits for the lock; (Queue) the stream was returned;
    it is over. *)
Inductive where_q := QNone | QHasId | QInserted | QListening | QWaiting | QWoken | QTimingOut | QStream | QDone (o : outcome).
(** A request: its number is the number of requests made before it (not in the
    code).  SharedMsg (44-45): the slot, and whether the listener was notified.
    The queue holds what the stream has not taken; [None] stands for a closed
    connection.  [q_got] is what the stream has taken (not in the code). *)
Record req := mkQ {
  q_kind : qkind; q_no : Z; q_id : Z; q_at : where_q;
  q_slot : option B; q_note : bool;
  q_queue : list (option B); q_closed : bool; q_got : list (option B)
}.
Definition no_req : req := mkQ Serial 0 0 QNone None false [] false [].

(** Where the dispatcher is: waiting for a frame; in send, waiting for room in a
    queue; in close, with the senders that remain; gone. *)
Inductive where_d := DIdle | DBlocked (r : task) (b : B) | DClosing (l : list task) | DGone.

(** MultiplexerSocket (58-64).  [x_started] counts the requests, [x_sent] are the
    ids that were sent and [x_frames] the frames that came (not in the code). *)
Record mux := mkX {
  x_next : Z; x_senders : list (Z * task); x_reqs : task -> req; x_disp : where_d; x_stale : bool;
  x_started : Z; x_sent : list (Z * task); x_frames : list (Z * B)
}.
(** new (84-111) *)
Definition new_mux : mux := mkX 1 [] (fun _ => no_req) DIdle false 0 [] [].

Definition at_ (w : where_q) (q : req) : req :=
  mkQ (q_kind q) (q_no q) (q_id q) w (q_slot q) (q_note q) (q_queue q) (q_closed q) (q_got q).
(** The slot is set, and the listener, if it is registered, is notified (464-466,
    527-530). *)
Definition put (m : option B) (q : req) : req :=
  mkQ (q_kind q) (q_no q) (q_id q) (q_at q) m
    match q_at q with QListening | QWaiting => true | _ => q_note q end (q_queue q) (q_closed q) (q_got q).
Definition push (m : option B) (q : req) : req :=
  mkQ (q_kind q) (q_no q) (q_id q) (q_at q) (q_slot q) (q_note q) (q_queue q ++ [m]) (q_closed q) (q_got q).
Definition pop (q : req) : req :=
  mkQ (q_kind q) (q_no q) (q_id q) (q_at q) (q_slot q) (q_note q) (tl (q_queue q)) (q_closed q)
    (q_got q ++ match q_queue q with m :: _ => [m] | [] => [] end).
Definition shut (q : req) : req :=
  mkQ (q_kind q) (q_no q) (q_id q) (q_at q) (q_slot q) (q_note q) (q_queue q) true (q_got q).
Definition room (q : req) : bool :=
  match q_kind q with Queue cap => Nat.ltb (length (q_queue q)) cap | Serial => true end.

Definition set (f : task -> req) (r : task) (q : req) : task -> req := fun r' => if Nat.eqb r' r then q else f r'.
Definition remove (i : Z) (l : list (Z * task)) : list (Z * task) := filter (fun e => negb (fst e =? i)) l.
Definition find_sender (i : Z) (l : list (Z * task)) : option task := option_map snd (find (fun e => fst e =? i) l).
Definition is_queue (q : req) : bool := match q_kind q with Queue _ => true | Serial => false end.
(** The dispatcher does not hold the lock. *)
Definition unlocked (s : mux) : bool := match x_disp s with DBlocked _ _ | DClosing _ => false | _ => true end.

Definition with_req (s : mux) (r : task) (q : req) : mux :=
  mkX (x_next s) (x_senders s) (set (x_reqs s) r q) (x_disp s) (x_stale s) (x_started s) (x_sent s) (x_frames s).
Definition with_senders (s : mux) (l : list (Z * task)) : mux :=
  mkX (x_next s) l (x_reqs s) (x_disp s) (x_stale s) (x_started s) (x_sent s) (x_frames s).
Definition with_disp (s : mux) (d : where_d) (stale : bool) : mux :=
  mkX (x_next s) (x_senders s) (x_reqs s) d stale (x_started s) (x_sent s) (x_frames s).

(** The request is dropped, or fails: a stream's receiver goes away, which closes
    the queue; the sender stays in the table. *)
Definition over (o : outcome) (q : req) : req := at_ (QDone o) (if is_queue q then shut q else q).

(** send (455-506), with the lock. *)
Definition send (s : mux) (i : Z) (b : B) : mux :=
  let s' := mkX (x_next s) (x_senders s) (x_reqs s) (x_disp s) (x_stale s) (x_started s) (x_sent s) (x_frames s ++ [(i, b)]) in
  match find_sender i (x_senders s) with
  | None => s'
  | Some r =>
      let q := x_reqs s r in
      if is_queue q then
        if q_closed q then s'
        else if room q then with_req s' r (push (Some b) q)
        else with_disp s' (DBlocked r b) (x_stale s)
      else with_req s' r (put (Some b) q)
  end.

Inductive maction :=
  | Start (r : task) (k : qkind) | Insert (r : task) | Listen (r : task) | Send (r : task) | SendFail (r : task)
  | Frame (i : Z) (b : B) | Unblock | Notified (r : task) | Finish (r : task) | Timeout (r : task) | FinishTimeout (r : task)
  | Cancel (r : task) | Pop (r : task) | Close | CloseNext | Terminate.

Definition mstep (s : mux) (a : maction) : option mux :=
  match a with
  (* next_correlation_id (122-124), set_correlation_id (145-148, 240-242) *)
  | Start r k =>
      match q_at (x_reqs s r) with
      | QNone =>
          Some (mkX (wrap_s 32 (x_next s + 1)) (x_senders s)
            (set (x_reqs s) r (mkQ k (x_started s) (x_next s) QHasId None false [] false [])) (x_disp s) (x_stale s)
            (x_started s + 1) (x_sent s) (x_frames s))
      | _ => None
      end
  (* 151-153; 248-258, which first removes the closed queues *)
  | Insert r =>
      let q := x_reqs s r in
      match q_at q, unlocked s with
      | QHasId, true =>
          let kept := if is_queue q then filter (fun e => negb (is_queue (x_reqs s (snd e)) && q_closed (x_reqs s (snd e)))) (x_senders s)
                      else x_senders s in
          Some (with_req (with_senders s (remove (q_id q) kept ++ [(q_id q, r)])) r (at_ QInserted q))
      | _, _ => None
      end
  (* 157 *)
  | Listen r =>
      let q := x_reqs s r in
      match q_at q, q_kind q with
      | QInserted, Serial => Some (with_req s r (at_ QListening q))
      | _, _ => None
      end
  (* 160, 262: the request goes out *)
  | Send r =>
      let q := x_reqs s r in
      let sent w := Some (mkX (x_next s) (x_senders s) (set (x_reqs s) r (at_ w q)) (x_disp s) (x_stale s)
                            (x_started s) (x_sent s ++ [(q_id q, r)]) (x_frames s)) in
      match q_at q, q_kind q with
      | QListening, Serial => sent QWaiting
      | QInserted, Queue _ => sent QStream
      | _, _ => None
      end
  | SendFail r =>
      let q := x_reqs s r in
      match q_at q, q_kind q with
      | QListening, Serial | QInserted, Queue _ => Some (with_req s r (over SendFailed q))
      | _, _ => None
      end
  (* dispatcher_loop (403-417) *)
  | Frame i b => match x_disp s with DIdle => Some (send s i b) | _ => None end
  (* 486: there is room now, or the queue was closed *)
  | Unblock =>
      match x_disp s with
      | DBlocked r b =>
          let q := x_reqs s r in
          if q_closed q then Some (with_disp s DIdle (x_stale s))
          else if room q then Some (with_disp (with_req s r (push (Some b) q)) DIdle (x_stale s))
          else None
      | _ => None
      end
  (* 181 *)
  | Notified r =>
      let q := x_reqs s r in
      match q_at q, q_note q with QWaiting, true => Some (with_req s r (at_ QWoken q)) | _, _ => None end
  (* 183-215 *)
  | Finish r =>
      let q := x_reqs s r in
      match q_at q, unlocked s with
      | QWoken, true =>
          Some (with_req (with_senders s (remove (q_id q) (x_senders s))) r
            (at_ (QDone match q_slot q with Some b => Response b | None => Closed end) q))
      | _, _ => None
      end
  (* 165 *)
  | Timeout r =>
      let q := x_reqs s r in
      match q_at q with QWaiting => Some (with_req s r (at_ QTimingOut q)) | _ => None end
  (* 167-178 *)
  | FinishTimeout r =>
      let q := x_reqs s r in
      match q_at q, unlocked s with
      | QTimingOut, true =>
          Some (with_disp (with_req (with_senders s (remove (q_id q) (x_senders s))) r (at_ (QDone TimedOut) q)) (x_disp s) true)
      | _, _ => None
      end
  (* the caller drops the call at an await, or the stream (289-295) *)
  | Cancel r =>
      let q := x_reqs s r in
      match q_at q with
      | QNone | QDone _ => None
      | _ => Some (with_req s r (over Cancelled q))
      end
  (* poll_next, poll (300-359) *)
  | Pop r =>
      let q := x_reqs s r in
      match q_at q, q_queue q with QStream, _ :: _ => Some (with_req s r (pop q)) | _, _ => None end
  (* the connection ends (419-428): close (508-522), sender by sender *)
  | Close => match x_disp s with DIdle => Some (with_disp s (DClosing (map snd (x_senders s))) true) | _ => None end
  | CloseNext =>
      match x_disp s with
      | DClosing [] => Some (with_disp s DGone (x_stale s))
      | DClosing (r :: l) =>
          let q := x_reqs s r in
          if is_queue q then
            if q_closed q then Some (with_disp s (DClosing l) (x_stale s))
            else if room q then Some (with_disp (with_req s r (push None q)) (DClosing l) (x_stale s))
            else None
          else Some (with_disp (with_req s r (put None q)) (DClosing l) (x_stale s))
      | _ => None
      end
  (* the socket was dropped (432-448) *)
  | Terminate =>
      match x_disp s with
      | DIdle =>
          Some (mkX (x_next s) (x_senders s)
            (fun r => let q := x_reqs s r in
                      if existsb (fun e => Nat.eqb (snd e) r) (x_senders s) then (if is_queue q then shut q else put None q) else q)
            DGone (x_stale s) (x_started s) (x_sent s) (x_frames s))
      | _ => None
      end
  end.
End Mux.
Arguments mux : clear implicits.
Arguments req : clear implicits.
Arguments outcome : clear implicits.
Arguments maction : clear implicits.
