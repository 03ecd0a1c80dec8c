(** Model of the client side of producing: one partition of a topic producer.
    Source: crates/fluvio/src/producer/{accumulator,memory_batch,
    partition_producer,record,partitioning,mod,event}.rs,
    crates/fluvio-socket/src/versioned.rs.

    Simplifications:
    - no compression ([Compression::None]), no SmartModules in the client;
    - a flush is one step: the queue is locked only while batches are taken out,
      and what is pushed while the request is under way is pushed after the step;
    - pushes to a partition come one after the other (the pool is locked while a
      record is pushed, mod.rs:285-318);
    - the producer is not dropped: dropping it stops the task that sends;
    - sizes are unbounded integers: a batch is never near 2^63 bytes. *)
From Verif Require Export ProduceModel.

(** [TopicProducerConfig], config.rs:75-132: [max_request_size], [batch_size],
    [batch_queue_size], [linger] in milliseconds *)
Inductive delivery := AtMostOnce | AtLeastOnce (max_retries : nat).
Record pconf := mkPconf { k_request : Z; k_batch : Z; k_queue : Z; k_linger : Z; k_delivery : delivery }.

(** * Batches under construction *)

(** [MemoryBatch], memory_batch.rs:15-37, with an identification that stands for
    the channel to those who wait for its records ([ProducerBatch],
    accumulator.rs:271-293).  Four bytes for the number of records. *)
Record mbatch := mkMb { mb_id : Z; mb_size : Z; mb_flag : bool; mb_time : Z; mb_recs : list rec }.
Definition new_batch (id now : Z) : mbatch := mkMb id 4 false now [].

(** [elapsed], [raw_size], [is_full], memory_batch.rs:88-100: 57 bytes of
    preamble and header *)
Definition elapsed (b : mbatch) (now : Z) : Z := Z.max 0 (now - mb_time b).
Definition mb_raw_size (b : mbatch) : Z := mb_size b + BATCH_FILE_HEADER_SIZE.
Definition mb_full (k : pconf) (b : mbatch) : bool := mb_flag b || (k_batch k <=? mb_raw_size b).

(** [set_offset_delta], [set_timestamp_delta] *)
Definition stamp (off ts : Z) (r : rec) : rec := mkRec (r_attr r) ts off (r_key r) (r_val r) (r_headers r).

(** [MemoryBatch::push_record], memory_batch.rs:45-86 *)
Inductive pushed := Added (off : Z) | NotAdded (r : rec) | TooLarge (size : Z).
Definition mb_push (k : pconf) (now : Z) (b : mbatch) (r0 : rec) : mbatch * pushed :=
  let off := zlen (mb_recs b) in
  let r := stamp off (elapsed b now) r0 in
  let rsize := c_size rec_codec r in
  let size := mb_raw_size b + rsize in
  let flag x := mkMb (mb_id b) (mb_size b) x (mb_time b) (mb_recs b) in
  let add x := mkMb (mb_id b) (mb_size b + rsize) x (mb_time b) (mb_recs b ++ [r]) in
  if k_request k <? size then (flag true, TooLarge size)
  else if off =? 0 then (add (mb_flag b || (k_batch k <? size)), Added off)
  else if k_batch k <? size then (flag true, NotAdded r)
  else (add (mb_flag b || (size =? k_batch k)), Added off).

(** [From<MemoryBatch> for Batch<MemoryRecords>], memory_batch.rs:116-146;
    [new_with_len], batch.rs *)
Definition mb_batch (b : mbatch) : batch (list rec) :=
  let n := zlen (mb_recs b) in
  let d := wrap_s 32 (if 0 <? n then n - 1 else n) in
  let mx := match rev (mb_recs b) with [] => 0 | r :: _ => mb_time b + r_ts r end in
  mkBatch d (wrap_s 32 (BATCH_HEADER_SIZE + c_size memory_codec (mb_recs b)))
    (set_compression (mkHdr (-1) 2 0 0 d (mb_time b) mx (-1) (-1) (-1)) 0) 0 (mb_recs b).

(** * The queue of a partition *)

(** One attempt to send a request: did it reach the SPU, and the answer: one
    base offset and code per batch, or an error of the socket that may
    ([is_retryable], versioned.rs:373-391) or may not be retried. *)
Inductive answer := Replied (l : list (Z * pcode)) | Retryable | Fatal.
Record attempt := mkAttempt { a_reached : bool; a_answer : answer }.

(** What the partition producer and those who push share.  [s_new], [s_full],
    [s_flush]: notifications not yet taken (event.rs: counted).  [s_timer]: when
    the linger timer fires.  [s_sent]: the requests built, oldest first, each the
    list of its batches, with what became of it; [s_wire]: the requests that
    reached the SPU, oldest first.  [s_notes]: what was answered for each batch. *)
Inductive note := Answer (base : Z) (e : pcode) | NoAnswer.
Record pstate := mkPs {
  s_queue : list mbatch; s_next : Z; s_error : bool;
  s_new : Z; s_full : Z; s_flush : Z; s_timer : option Z;
  s_sent : list (list (batch bytes) * list attempt); s_wire : list (list (batch bytes)); s_notes : list (Z * note);
}.
Definition producer0 : pstate := mkPs [] 0 false 0 0 0 None [] [] [].

(** Clock readings: monotonic (timers) and wall clock (batches), milliseconds. *)
Record reading := mkNow { mono : Z; wall : Z }.

(** What the application gets for a push: the batch and the position in it
    ([FutureRecordMetadata]), or an error; [Blocked]: the queue is full, the
    call does not return ([wait_for_space], accumulator.rs:162-179). *)
Inductive outcome := Accepted (id off : Z) | RecordTooLarge | LastError | Internal | Blocked.

(** [create_and_new_batch], accumulator.rs:181-232: the queue, the number of
    [batch_full] notifications, the number of [new_batch] notifications.  The
    number of attempts is limited to two. *)
Fixpoint create_batch (attempts : nat) (k : pconf) (made now : Z) (q : list mbatch) (id : Z) (r : rec)
  : list mbatch * Z * Z * outcome :=
  match attempts with
  | O => (q, 0, 0, Internal)
  | S a =>
      match mb_push k now (new_batch id made) r with
      | (b, Added off) => (q ++ [b], if mb_full k b then 1 else 0, 1, Accepted id off)
      | (b, NotAdded r') =>
          let '(q', f, n, o) := create_batch a k made now (q ++ [b]) (id + 1) r' in
          (q', f + (if mb_full k b then 1 else 0), n + 1, o)
      | (_, TooLarge _) => (q, 0, 0, RecordTooLarge)
      end
  end.

(** [RecordAccumulator::push_record], accumulator.rs:103-160; three clock
    readings: for the open batch, for the creation of a new one, for the new one *)
Definition accumulate (k : pconf) (t1 t2 t3 : reading) (q : list mbatch) (id : Z) (r : rec)
  : list mbatch * Z * Z * outcome :=
  match rev q with
  | [] => create_batch 2 k (wall t2) (wall t3) q id r
  | b :: before =>
      match mb_push k (wall t1) b r with
      | (b', Added off) => (rev before ++ [b'], if mb_full k b' then 1 else 0, 0, Accepted (mb_id b) off)
      | (b', NotAdded r') =>
          let '(q', f, n, o) := create_batch 2 k (wall t2) (wall t3) (rev before ++ [b']) id r' in
          (q', f + (if mb_full k b' then 1 else 0), n, o)
      | (b', TooLarge _) => (rev before ++ [b'], 0, 0, RecordTooLarge)
      end
  end.

(** [InnerTopicProducer::push_record] for a partition, mod.rs:255-321 *)
Definition push (k : pconf) (t1 t2 t3 : reading) (s : pstate) (r : rec) : pstate * outcome :=
  if s_error s then (s, LastError)
  else if k_queue k <=? zlen (s_queue s) then (s, Blocked)
  else let '(q, f, n, o) := accumulate k t1 t2 t3 (s_queue s) (s_next s) r in
       (mkPs q (s_next s + n) (s_error s) (s_new s + n) (s_full s + f) (s_flush s) (s_timer s)
             (s_sent s) (s_wire s) (s_notes s), o).

(** * Sending *)

(** [send_receive_with_retry] within the time limit of the policy,
    partition_producer.rs:304-311, versioned.rs:327-347: how often the request
    reached the SPU, and the answer.  No attempt left: the time is up. *)
Fixpoint with_retry (retries : nat) (l : list attempt) {struct l} : nat * option (list (Z * pcode)) :=
  match l with
  | [] => (O, None)
  | a :: t =>
      let c := if a_reached a then 1%nat else 0%nat in
      match a_answer a with
      | Replied r => (1%nat, Some r)
      | Fatal => (c, None)
      | Retryable => match retries with
                     | O => (c, None)
                     | S n => let (m, x) := with_retry n t in ((c + m)%nat, x)
                     end
      end
  end.

(** [send_to_socket], partition_producer.rs:286-328, and
    [ProducePartitionResponseFuture], accumulator.rs:391-420, for [n] batches:
    what those who wait for each batch are told; [None]: the flush fails.  With
    at-most-once delivery the code in the response is not looked at; a request
    that could not be handed to the socket ([Fatal], not reached) makes the flush
    fail, any other error is told to those who wait. *)
Definition send_request (k : pconf) (n : nat) (l : list attempt) : nat * option (list note) :=
  match k_delivery k with
  | AtLeastOnce retries =>
      let (c, x) := with_retry retries l in
      (c, match x with
          | Some r => Some (map (fun p => Answer (fst p) (snd p)) r)
          | None => None
          end)
  | AtMostOnce =>
      match l with
      | [] => (O, None)
      | a :: _ =>
          match a_answer a with
          | Replied r => (1%nat, Some (map (fun i => match nth_error r i with
                                                    | Some p => Answer (fst p) NoError
                                                    | None => NoAnswer
                                                    end) (seq 0 n)))
          | Retryable => (if a_reached a then 1%nat else 0%nat, Some (repeat NoAnswer n))
          | Fatal => (if a_reached a then 1%nat else 0%nat, None)
          end
      end
  end.

(** The batches taken out of the queue by [flush], partition_producer.rs:167-188 *)
Fixpoint take_ready (k : pconf) (force : bool) (now : Z) (q : list mbatch) : list mbatch * list mbatch :=
  match q with
  | [] => ([], [])
  | b :: t => if force || mb_full k b || (k_linger k <=? elapsed b now)
              then let (x, y) := take_ready k force now t in (b :: x, y)
              else ([], q)
  end.

(** The notifiers are zipped with the answers, partition_producer.rs:246-252; a
    notifier without answer is dropped, which those who wait see as an error. *)
Fixpoint notify_all (ids : list Z) (l : list note) : list (Z * note) :=
  match ids with
  | [] => []
  | i :: t => match l with
              | [] => (i, NoAnswer) :: notify_all t []
              | x :: l' => (i, x) :: notify_all t l'
              end
  end.

(** [flush], partition_producer.rs:167-261, and what [run] does with its result.
    No attempt at all: there is no connection to the leader yet, and
    [connect_spu_with_reconnect], 268-282, goes on trying: nothing has happened. *)
Definition flush (k : pconf) (force : bool) (now : reading) (l : list attempt) (timer : option Z) (dn df dfl : Z) (s : pstate) : pstate :=
  match l with
  | [] => s
  | _ =>
  let (ready, rest) := take_ready k force (wall now) (s_queue s) in
  let request := map (fun b => to_raw (mb_batch b)) ready in
  let (copies, x) := send_request k (length ready) l in
  mkPs rest (s_next s) (match x with Some _ => s_error s | None => true end)
       (s_new s - dn) (s_full s - df) (s_flush s - dfl) timer
       (s_sent s ++ [(request, l)]) (s_wire s ++ repeat request copies)
       (s_notes s ++ notify_all (map mb_id ready) (match x with Some l => l | None => [] end))
  end.

(** [PartitionProducer::run], partition_producer.rs:89-139, and the calls of the
    application.  An event that is not possible does nothing. *)
Inductive pevent :=
  | Push (r : rec) (t1 t2 t3 : reading)
  | AskFlush                                    (* [flush] of the application *)
  | ClearErrors
  | TakeNew (t : reading)                       (* [listen_new_batch] *)
  | TakeFull (t : reading) (l : list attempt)   (* [listen_batch_full] *)
  | TakeFlush (t : reading) (l : list attempt)
  | Linger (t : reading) (l : list attempt).    (* the timer *)
Definition pstep (k : pconf) (s : pstate) (e : pevent) : pstate * option outcome :=
  match e with
  | Push r t1 t2 t3 => let (s', o) := push k t1 t2 t3 s r in (s', Some o)
  | AskFlush => (mkPs (s_queue s) (s_next s) (s_error s) (s_new s) (s_full s) (s_flush s + 1) (s_timer s) (s_sent s) (s_wire s) (s_notes s), None)
  | ClearErrors => (mkPs (s_queue s) (s_next s) false (s_new s) (s_full s) (s_flush s) (s_timer s) (s_sent s) (s_wire s) (s_notes s), None)
  | TakeNew t => (if 0 <? s_new s
                  then mkPs (s_queue s) (s_next s) (s_error s) (s_new s - 1) (s_full s) (s_flush s) (Some (mono t + k_linger k)) (s_sent s) (s_wire s) (s_notes s)
                  else s, None)
  | TakeFull t l => (if 0 <? s_full s then flush k false t l (s_timer s) 0 1 0 s else s, None)
  | TakeFlush t l => (if 0 <? s_flush s then flush k true t l None 0 0 1 s else s, None)
  | Linger t l => (match s_timer s with
                   | Some d => if d <=? mono t then flush k false t l None 0 0 0 s else s
                   | None => s
                   end, None)
  end.
Fixpoint prun (k : pconf) (s : pstate) (l : list pevent) : pstate * list (option outcome) :=
  match l with
  | [] => (s, [])
  | e :: t => let (s1, o) := pstep k s e in let (s2, os) := prun k s1 t in (s2, o :: os)
  end.

(** * What the application is told: [FutureRecordMetadata::wait],
      [BatchMetadata::base_offset], record.rs:85-161.  [None]: still waiting. *)
Fixpoint find_note (id : Z) (l : list (Z * note)) : option note :=
  match l with [] => None | (i, x) :: t => if i =? id then Some x else find_note id t end.
Definition wait_for (s : pstate) (id off : Z) : option (option Z) :=
  match find_note id (s_notes s) with
  | None => None
  | Some (Answer base NoError) => Some (Some (base + off))
  | Some _ => Some None
  end.

(** [flush_all_batches], mod.rs:178-197: for every pair of the two hash maps
    (each in its own order), ask for a flush, wait, look at the error.  [fails]:
    the partitions whose flush fails now; [errs]: the partitions with an error. *)
Fixpoint flush_all (fails errs : Z -> bool) (pairs : list (Z * Z)) : bool :=
  match pairs with
  | [] => true
  | (p, q) :: t => let errs' := fun x => errs x || ((x =? p) && fails p) in
                   if errs' q then false else flush_all fails errs' t
  end.

(** * Partitioners, partitioning.rs:40-106.  [hash]: SipHash of the key, 64 bits.
      The counter has 32 bits.  A partition count of 0 is a division by zero. *)
Record topicinfo := mkInfo { i_count : Z; i_avail : list Z }.
Definition partition_of (hash : bytes -> Z) (i : topicinfo) (counter : Z) (key : option bytes) : Z * res Z :=
  match key with
  | Some x => (counter, if i_count i =? 0 then Err Panic else Ok (hash x mod i_count i))
  | None =>
      (wrap_u 32 (counter + 1),
       match i_avail i with
       | [] => if i_count i =? 0 then Err Panic else Ok (counter mod i_count i)
       | l => Ok (nth (Z.to_nat (counter mod zlen l)) l 0)
       end)
  end.
(** The partitions chosen for a list of keys *)
Fixpoint partitions_of (hash : bytes -> Z) (i : topicinfo) (counter : Z) (keys : list (option bytes)) : list (res Z) :=
  match keys with
  | [] => []
  | x :: t => let (c, p) := partition_of hash i counter x in p :: partitions_of hash i c t
  end.
(** [update_available_partitions], mod.rs:468-503: [topic]: the partition count
    in the topic store ([None]: not found), [online]: which partitions are. *)
Definition update_available (topic : option Z) (online : Z -> bool) (i : topicinfo) : topicinfo :=
  match topic with
  | None => i
  | Some n => mkInfo n (filter online (map Z.of_nat (seq 0 (Z.to_nat n))))
  end.
