(** Model of the consuming client: start offsets, managed offsets, bounded reads,
    reconnection.
    Source: crates/fluvio/src/offset.rs, crates/fluvio/src/consumer/offset.rs,
    crates/fluvio/src/consumer/stream.rs, crates/fluvio/src/consumer/mod.rs,
    crates/fluvio/src/consumer/retry.rs.

    Simplifications:
    - waiting times (back-off, flush period, the 100 ms ticks) are choices of the
      environment: a flush is due or not, a tick may happen at any time;
    - the channel from the stream to the task that talks to the server holds the
      flush messages only; that it is full (100 messages) is a choice of the
      environment;
    - reconnection succeeds in the end (the limits on attempts only decide when
      the stream gives up with an error). *)
From Verif Require Export StreamModel.

(** * Start offsets: [OffsetInner], offset.rs:13-41 *)
Inductive request := Absolute (o : Z) | FromBeginning (o : Z) | FromEnd (o : Z).
(** [i64::clamp] *)
Definition clamp (x lo hi : Z) : res Z := if hi <? lo then Err Panic else Ok (if x <? lo then lo else if hi <? x then hi else x).
(** [Offset::resolve], offset.rs:20-40, 299-309.  [start], [stable]: the
    [start_offset] and [last_stable_offset] the SPU reports: log start and high
    watermark (offset_request.rs:48-51). *)
Definition resolve (q : request) (start stable : Z) (consumer : option Z) : res Z :=
  let* x := match q with
            | Absolute o => Ok o
            | FromBeginning o => clamp (wrap_s 64 (match consumer with Some k => k | None => start end + o)) start stable
            | FromEnd o => clamp (wrap_s 64 (match consumer with Some k => k | None => stable end - o)) start stable
            end in
  Ok (Z.max x 0).
(** [Offset::absolute], offset.rs:131-138; [from_beginning] and [from_end] take
    a u32. *)
Definition absolute (o : Z) : option request := if o <? 0 then None else Some (Absolute o).
(** The position handed to [resolve] for a consumer with a stored offset,
    mod.rs:398-419 *)
Definition consumer_position (stored : option Z) : option Z := option_map (fun o => wrap_s 64 (o + 1)) stored.

(** * Managed offsets: [OffsetLocalStore], consumer/offset.rs:18-93 *)
Record local := mkLocal { l_seen : Z; l_comm : Z; l_flushed : Z }.
Definition local0 : local := mkLocal (-1) (-1) (-1).
(** [update], lines 35-37 *)
Definition see (o : Z) (l : local) : local := mkLocal (Z.max (l_seen l) o) (l_comm l) (l_flushed l).
(** [commit], lines 39-42 *)
Definition mark (l : local) : local := mkLocal (l_seen l) (l_seen l) (l_flushed l).
Definition set_flushed (o : Z) (l : local) : local := mkLocal (l_seen l) (l_comm l) o.

(** [OffsetManagementStrategy] *)
Inductive mode := NoManagement | Manual | Auto.
(** [StreamToServer::FlushManagedOffset]: the offset, and who waits for the answer *)
Record note := mkNote { t_off : Z; t_cb : option nat }.
(** One stream and its channel.  [e_open]: the task that sends the requests is
    running (mod.rs:475-531).  [e_wait]: the flush the application waits for;
    [e_id]: for the next one. *)
Record session := mkSession { e_local : local; e_queue : list note; e_open : bool; e_wait : option nat; e_id : nat }.
Definition session0 : session := mkSession local0 [] true None O.
(** What can be observed: records handed to the application, commits, results of
    flushes; and, for reference, automatic flushes sent and reconnections. *)
Inductive event := Handed (o : Z) | Committed | Refused | FlushOk | FlushErr | AutoSent (o : Z) | Reconnected.
(** [w_stored]: the offset the server has for the consumer; [w_old]: messages of
    earlier connections that are still under way; [w_log]: newest first. *)
Record world := mkWorld { w_mode : mode; w_stored : option Z; w_cur : session; w_old : list (list note); w_log : list event }.
Definition world0 (m : mode) (stored : option Z) : world := mkWorld m stored session0 [] [].

(** [try_flush], consumer/offset.rs:69-81 *)
Definition try_flush (full : bool) (e : session) : session * list event :=
  let l := e_local e in
  if l_comm l <=? l_flushed l then (e, [])
  else if full || negb (e_open e) then (e, [])
  else (mkSession (set_flushed (l_comm l) l) (e_queue e ++ [mkNote (l_comm l) None]) (e_open e) (e_wait e) (e_id e), [AutoSent (l_comm l)]).
(** [run_auto_flush], stream.rs:257-277 *)
Definition auto_flush (m : mode) (due full : bool) (e : session) : session * list event :=
  match m with Auto => if due then try_flush full e else (e, []) | _ => (e, []) end.
Definition on_local (f : local -> local) (e : session) : session := mkSession (f (e_local e)) (e_queue e) (e_open e) (e_wait e) (e_id e).
Definition set_cur (w : world) (e : session) (l : list event) : world := mkWorld (w_mode w) (w_stored w) e (w_old w) (l ++ w_log w).

(** [poll_next] hands out a record: [OffsetManagement::update], stream.rs:132-147, 243-255 *)
Definition on_record (o : Z) (due full : bool) (w : world) : world :=
  let e := w_cur w in
  match w_mode w with
  | NoManagement => set_cur w e [Handed o]
  | Manual => set_cur w (on_local (see o) e) [Handed o]
  | Auto => let p := auto_flush Auto due full (on_local (fun l => mark (see o l)) e) in set_cur w (fst p) (snd p ++ [Handed o])
  end.
(** a tick of the background flusher, or [poll_next] without a record,
    stream.rs:148-151, 226-241 *)
Definition on_tick (due full : bool) (w : world) : world :=
  let p := auto_flush (w_mode w) due full (w_cur w) in set_cur w (fst p) (snd p).
(** [OffsetManagement::commit], stream.rs:279-291 *)
Definition on_commit (w : world) : world :=
  match w_mode w with NoManagement => set_cur w (w_cur w) [Refused] | _ => set_cur w (on_local mark (w_cur w)) [Committed] end.
(** [OffsetManagement::flush], stream.rs:293-310, and [OffsetLocalStore::flush],
    consumer/offset.rs:44-67, up to the point where the answer is awaited. *)
Definition flush_begin (w : world) : world :=
  let e := w_cur w in let l := e_local e in
  match w_mode w with
  | NoManagement => set_cur w e [FlushErr]
  | _ =>
      if l_comm l <=? l_flushed l then set_cur w e [FlushOk]
      else if negb (e_open e) then set_cur w e [FlushErr]
      else set_cur w (mkSession l (e_queue e ++ [mkNote (l_comm l) (Some (e_id e))]) (e_open e) (Some (e_id e)) (S (e_id e))) []
  end.
(** The application stops waiting: the future is dropped. *)
Definition flush_cancel (w : world) : world :=
  let e := w_cur w in set_cur w (mkSession (e_local e) (e_queue e) (e_open e) None (e_id e)) [].

(** What becomes of an [UpdateConsumerOffsetRequest]: stored and confirmed; an
    error code (the offset may be stored all the same: consumer_handler.rs:104-152,
    kv/consumer.rs:112-124); or the request fails, and may have been received. *)
Inductive outcome := Confirmed | Refusal (stored : bool) | Broken (stored : bool).
Definition applied (x : outcome) : bool := match x with Confirmed => true | Refusal b | Broken b => b end.
Definition store_note (t : note) (x : outcome) (v : option Z) : option Z := if applied x then Some (t_off t) else v.
Definition waits_for (e : session) (t : note) : bool :=
  match e_wait e, t_cb t with Some i, Some j => Nat.eqb i j | _, _ => false end.
(** The task handles the oldest message, mod.rs:503-523; [flush] gets its answer,
    consumer/offset.rs:55-66.  When the request fails the task ends, and the
    messages left, with their callbacks, are dropped. *)
Definition on_note (x : outcome) (w : world) : world :=
  let e := w_cur w in
  match e_queue e with
  | [] => w
  | t :: q =>
      let v := store_note t x (w_stored w) in
      let p := match x with
        | Confirmed => if waits_for e t then (mkSession (set_flushed (l_comm (e_local e)) (e_local e)) q (e_open e) None (e_id e), [FlushOk])
                       else (mkSession (e_local e) q (e_open e) (e_wait e) (e_id e), [])
        | Refusal _ => if waits_for e t then (mkSession (e_local e) q (e_open e) None (e_id e), [FlushErr])
                       else (mkSession (e_local e) q (e_open e) (e_wait e) (e_id e), [])
        | Broken _ => (mkSession (e_local e) [] false None (e_id e), match e_wait e with Some _ => [FlushErr] | None => [] end)
        end in
      mkWorld (w_mode w) v (fst p) (w_old w) (snd p ++ w_log w)
  end.
(** The stream has ended and the task with it, mod.rs:499-502, 733-739 *)
Definition on_close (w : world) : world :=
  let e := w_cur w in set_cur w (mkSession (e_local e) [] false None (e_id e)) (match e_wait e with Some _ => [FlushErr] | None => [] end).
(** A new connection: the old stream is dropped ([Drop for OffsetManagement],
    stream.rs:313-329), its task goes on with what is in its channel. *)
Definition on_reconnect (full : bool) (w : world) : world :=
  let p := match w_mode w with Auto => try_flush full (on_local mark (w_cur w)) | _ => (w_cur w, []) end in
  mkWorld (w_mode w) (w_stored w) session0 (w_old w ++ [e_queue (fst p)]) (Reconnected :: snd p ++ w_log w).
(** The task of an earlier connection handles its oldest message. *)
Definition set_nth {A} (i : nat) (x : A) (l : list A) : list A := firstn i l ++ x :: skipn (S i) l.
Definition on_old (i : nat) (x : outcome) (w : world) : world :=
  match nth_error (w_old w) i with
  | Some (t :: q) => mkWorld (w_mode w) (store_note t x (w_stored w)) (w_cur w)
                       (set_nth i (match x with Broken _ => [] | _ => q end) (w_old w)) (w_log w)
  | _ => w
  end.

(** * Bounded reads: [TakeRecords], mod.rs:646-705 *)
Definition reply_count (x : reply) : Z :=
  match x with
  | Raw records => fold_right (fun b n => records_len b + n) 0 (receive records)
  | Processed b _ => zlen (b_recs b)
  | Failure => 0
  end.
(** A stream and the number of records that remain to be seen. *)
Record bounded := mkBounded { b_sys : sys; b_left : Z }.
(** mod.rs:421-425, 555-559 *)
Definition start_bounded (r : replica) (s : Z) : bounded := mkBounded (start_stream r s) (get_hw r - s).
(** [poll_next], mod.rs:675-704, for a response *)
Definition take_reply (s : Z) (b : bounded) : bounded :=
  match y_net (b_sys b) with
  | [] => b
  | x :: _ => mkBounded (on_reply s (b_sys b)) (match x with Failure => b_left b | _ => Z.max (b_left b - reply_count x) 0 end)
  end.

(** * Reconnection: [ConsumerRetryStream], retry.rs *)

(** The connection of one partition.  [n_taken]: how many of the items the
    application was given; [n_avail]: the log start reported with an error. *)
Record conn := mkConn { n_start : Z; n_sys : sys; n_taken : nat; n_avail : Z }.
Definition open_conn (r : replica) (s : Z) : conn := mkConn s (start_stream r s) O 0.
(** The connection goes on; an error it reports carries the log start of that
    moment ([OffsetEvicted], fluvio-storage/src/replica.rs:382-385). *)
Definition conn_move (n : conn) (y : sys) : conn :=
  mkConn (n_start n) y (n_taken n) (match y_pc (n_sys n) with Sending _ => get_log_start (y_store (n_sys n)) | _ => n_avail n end).
(** All partitions of a consumer share [next_offset_to_read], retry.rs:64-71 *)
Record reader := mkReader { d_conns : list conn; d_next : option Z; d_given : list (nat * (Z * rec)) }.
(** [next_offset], retry.rs:73-80 *)
Definition next_offset (first : request) (next : option Z) : request :=
  match next with Some n => match absolute n with Some q => q | None => first end | None => first end.
(** [create_owned_stream]: every partition is asked for the same offset,
    retry.rs:187-196, 256-264 (mod.rs:912-950 for several partitions).  The reads
    of partitions whose offset cannot be resolved are left out: [None]. *)
Fixpoint open_all (q : request) (rs : list replica) : option (list conn) :=
  match rs with
  | [] => Some []
  | r :: t => match resolve q (get_log_start r) (get_hw r) None, open_all q t with
              | Ok s, Some l => Some (open_conn r s :: l)
              | _, _ => None
              end
  end.
Definition stores (d : reader) : list replica := map (fun n => y_store (n_sys n)) (d_conns d).
Definition reconnect (first : request) (next : option Z) (d : reader) : option reader :=
  match open_all (next_offset first next) (stores d) with
  | Some l => Some (mkReader l next (d_given d))
  | None => None
  end.
(** The next item of partition [i] reaches [handle_consumer_records],
    retry.rs:283-332, and [poll_next], retry.rs:139-150.  A record is handed
    out.  An error: reading before the log start; the consumer reconnects from
    the log start it was told.  (Other errors do not change the next offset;
    they are connection failures here.) *)
Definition take (first : request) (i : nat) (d : reader) : option reader :=
  match nth_error (d_conns d) i with
  | None => None
  | Some n =>
      match nth_error (y_out (n_sys n)) (n_taken n) with
      | None => None
      | Some (Rec c) =>
          Some (mkReader (set_nth i (mkConn (n_start n) (n_sys n) (S (n_taken n)) (n_avail n)) (d_conns d))
                         (Some (cr_offset c + 1)) (d_given d ++ [(i, (cr_offset c, cr_rec c))]))
      | Some ErrItem => reconnect first (Some (n_avail n)) d
      end
  end.
(** The connection fails, or the stream ends. *)
Definition fail (first : request) (d : reader) : option reader := reconnect first (d_next d) d.
