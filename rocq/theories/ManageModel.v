(** Model of a consumer with managed offsets that reads several partitions, over
    any number of runs of its application.
    Source: crates/fluvio/src/consumer/stream.rs, crates/fluvio/src/consumer/mod.rs,
    crates/fluvio/src/consumer/retry.rs, crates/fluvio/src/fluvio.rs:362-424.

    Simplifications (besides those of ConsumerModel):
    - the consumer has an id ([offset_consumer]) and keeps it, its start offset,
      its partitions and its [OffsetManagementStrategy] from run to run;
    - streams that cannot be opened end the run: nothing is modelled for them;
    - [select_all] may hand out the next item of any partition;
    - [try_join_all] polls its futures in order and stops at the first error (for
      more than 30 partitions the order is another one). *)
From Verif Require Export ConsumerModel.

(** One partition: its stream ([SinglePartitionConsumerStream], stream.rs:40-43),
    and what is committed and stored for it.  [q_over]: the stream has ended and
    [select_all] has dropped it. *)
Record part := mkPart { q_conn : conn; q_world : world; q_over : bool }.
(** The future of the flush of one partition, stream.rs:205-208 *)
Inductive fut := Created | Pending | Finished.
(** What the application sees of commits and flushes; [Began]: a new run or a new
    connection.  Newest first. *)
Inductive gevent := CommitOk | CommitErr | AllFlushed | FlushFailed | Began.
(** [MultiplePartitionConsumerStream], stream.rs:35-38, in a [ConsumerRetryStream],
    retry.rs:38-71.  [g_join]: the flush the application waits for. *)
Record group := mkGroup { g_parts : list part; g_next : option Z; g_given : list (nat * (Z * rec)); g_join : option (list fut); g_log : list gevent }.

Definition part_store (x : part) : replica := y_store (n_sys (q_conn x)).
Definition set_part (i : nat) (x : part) (g : group) : group := mkGroup (set_nth i x (g_parts g)) (g_next g) (g_given g) (g_join g) (g_log g).
Definition set_world (x : part) (w : world) : part := mkPart (q_conn x) w (q_over x).

(** * Opening *)

(** [request_stream], mod.rs:382-422, for one partition: the stored offset and the
    range of the log are fetched, the start is resolved *)
Definition open_part (q : request) (stored : option Z) (r : replica) : option conn :=
  match resolve q (get_log_start r) (get_hw r) (consumer_position stored) with Ok s => Some (open_conn r s) | Err _ => None end.
(** [consumer_with_config_inner], fluvio.rs:410-423: all partitions, one after the
    other, with the same start offset.  The first run, for partitions with the
    offsets stored for the consumer. *)
Fixpoint open_first (m : mode) (q : request) (l : list (replica * option Z)) : option (list part) :=
  match l with
  | [] => Some []
  | (r, v) :: t => match open_part q v r, open_first m q t with
                   | Some n, Some k => Some (mkPart n (world0 m v) false :: k)
                   | _, _ => None
                   end
  end.
Definition first_run (m : mode) (q : request) (l : list (replica * option Z)) : option group :=
  match open_first m q l with Some k => Some (mkGroup k None [] None []) | None => None end.
(** All partitions once more; what was there before is dropped ([Drop for
    OffsetManagement], stream.rs:317-333), also a flush that is not answered.
    [full]: the channel of a partition is full, or the application has crashed and
    nothing is flushed. *)
Fixpoint reopen (q : request) (full : nat -> bool) (i : nat) (l : list part) : option (list part) :=
  match l with
  | [] => Some []
  | x :: t => match open_part q (w_stored (q_world x)) (part_store x), reopen q full (S i) t with
              | Some n, Some k => Some (mkPart n (on_reconnect (full i) (flush_cancel (q_world x))) false :: k)
              | _, _ => None
              end
  end.
(** The application ends, at any point, and is started again. *)
Definition restart (first : request) (full : nat -> bool) (g : group) : option group :=
  match reopen first full 0 (g_parts g) with Some k => Some (mkGroup k None (g_given g) None (Began :: g_log g)) | None => None end.
(** The connection fails: a new one, from the next offset on, for all partitions,
    retry.rs:232-276; [next_offset], retry.rs:73-80. *)
Definition retry_from (first : request) (next : option Z) (full : nat -> bool) (g : group) : option group :=
  match reopen (next_offset first next) full 0 (g_parts g) with Some k => Some (mkGroup k next (g_given g) None (Began :: g_log g)) | None => None end.

(** * Reading *)

(** [poll_next] of the partitions and of [ConsumerRetryStream]: a record is noted
    ([update]) and handed out, stream.rs:139-155, retry.rs:137-166; for an error
    the automatic flush may run, and a consumer that retries ([retry]) reconnects,
    from the log start it is told, retry.rs:279-333.  (That the application has
    seen the error is not noted: it is the last item of a stream.) *)
Definition hand (first : request) (retry : bool) (i : nat) (due full : bool) (fulls : nat -> bool) (g : group) : option group :=
  match nth_error (g_parts g) i with
  | None => None
  | Some x =>
      let n := q_conn x in
      if q_over x then None
      else match nth_error (y_out (n_sys n)) (n_taken n) with
      | None => None
      | Some (Rec c) =>
          let o := cr_offset c in
          Some (mkGroup (set_nth i (mkPart (mkConn (n_start n) (n_sys n) (S (n_taken n)) (n_avail n)) (on_record o due full (q_world x)) false) (g_parts g))
                        (Some (o + 1)) (g_given g ++ [(i, (o, cr_rec c))]) (g_join g) (g_log g))
      | Some ErrItem =>
          let g' := set_part i (set_world x (on_tick due full (q_world x))) g in
          if retry then retry_from first (Some (n_avail n)) fulls g' else Some g'
      end
  end.
(** The connection of a partition is lost before its first response has arrived:
    its stream ends without an item, mod.rs:463-466, 563-566, and [select_all] goes on
    with the others. *)
Definition lose (i : nat) (g : group) : option group :=
  match nth_error (g_parts g) i with
  | Some x => match y_out (n_sys (q_conn x)) with [] => Some (set_part i (mkPart (q_conn x) (q_world x) true) g) | _ => None end
  | None => None
  end.

(** * Committing and flushing *)

(** [offset_commit], stream.rs:195-203: all partitions, up to the first error *)
Fixpoint commit_loop (l : list part) : list part * bool :=
  match l with
  | [] => ([], true)
  | x :: t =>
      let w := on_commit (q_world x) in
      match w_mode (q_world x) with
      | NoManagement => (set_world x w :: t, false)
      | _ => let k := commit_loop t in (set_world x w :: fst k, snd k)
      end
  end.
Definition commit_all (g : group) : group :=
  let k := commit_loop (g_parts g) in mkGroup (fst k) (g_next g) (g_given g) (g_join g) ((if snd k then CommitOk else CommitErr) :: g_log g).

(** The answer to the last flush of a partition *)
Fixpoint answer_of (l : list event) : bool :=
  match l with [] => false | FlushOk :: _ => true | FlushErr :: _ => false | _ :: t => answer_of t end.
(** [OffsetManagement::flush], polled: [None] as long as it waits *)
Definition poll_one (x : part) (f : fut) : part * option bool :=
  match f with
  | Finished => (x, Some true)
  | _ => let x' := match f with Created => set_world x (flush_begin (q_world x)) | _ => x end in
         (x', match e_wait (w_cur (q_world x')) with Some _ => None | None => Some (answer_of (w_log (q_world x'))) end)
  end.
(** [offset_flush], stream.rs:205-208: [try_join_all] *)
Fixpoint poll_join (l : list part) (fs : list fut) : list part * list fut * option bool :=
  match l, fs with
  | x :: t, f :: u =>
      match poll_one x f with
      | (x', Some false) => (x' :: t, Finished :: u, Some false)
      | (x', Some true) => let k := poll_join t u in (x' :: fst (fst k), Finished :: snd (fst k), snd k)
      | (x', None) => let k := poll_join t u in (x' :: fst (fst k), Pending :: snd (fst k), match snd k with Some true => None | r => r end)
      end
  | _, _ => (l, fs, Some true)
  end.
Definition start_flush (g : group) : group := mkGroup (g_parts g) (g_next g) (g_given g) (Some (map (fun _ => Created) (g_parts g))) (g_log g).
Definition cancel_all (l : list part) : list part := map (fun x => set_world x (flush_cancel (q_world x))) l.
Definition poll_flush (g : group) : group :=
  match g_join g with
  | None => g
  | Some fs =>
      let k := poll_join (g_parts g) fs in
      match snd k with
      | None => mkGroup (fst (fst k)) (g_next g) (g_given g) (Some (snd (fst k))) (g_log g)
      | Some true => mkGroup (fst (fst k)) (g_next g) (g_given g) None (AllFlushed :: g_log g)
      | Some false => mkGroup (cancel_all (fst (fst k))) (g_next g) (g_given g) None (FlushFailed :: g_log g)
      end
  end.
(** The application drops the flush. *)
Definition drop_flush (g : group) : group := mkGroup (cancel_all (g_parts g)) (g_next g) (g_given g) None (g_log g).
