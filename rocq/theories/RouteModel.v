(** Model of how a client finds the server for a partition: the copies of the
    metadata it looks into, its pool of connections to SPUs, the opening of
    consumer streams, and the reconnecting of producers.

    Source (paths below /repo/crates):
    - fluvio/src/spu.rs: [SpuSocketPool], its [connect_to_leader],
      [create_serial_socket_from_leader], [create_serial_socket] and
      [create_stream_with_version];
    - fluvio/src/sync/mod.rs: [lookup_by_key], [lookup_and_wait],
      [look_up_by_id];
    - fluvio/src/sync/controller.rs: [dispatch_loop], [sync_metadata];
    - fluvio/src/producer/partition_producer.rs: [connect_spu],
      [connect_spu_with_reconnect];
    - fluvio-socket/src/multiplexing.rs: when a connection is stale.

    Partitions, SPUs, addresses, server processes and connections are numbers.
    What the stores of metadata do with epochs is in MetaModel; here a store is
    what it holds and whether it ever changed. *)
Require Import ZArith List Bool.
Import ListNotations.
Open Scope Z_scope.

(** * Maps *)

Fixpoint get {A} (k : Z) (m : list (Z * A)) : option A :=
  match m with [] => None | (k', a) :: r => if k =? k' then Some a else get k r end.
Definition del {A} (k : Z) (m : list (Z * A)) : list (Z * A) := filter (fun e => negb (k =? fst e)) m.
Definition put {A} (k : Z) (a : A) (m : list (Z * A)) : list (Z * A) := (k, a) :: del k m.

(** * The copies of the metadata *)

(** a store, [None] before its first change: [wait_for_first_change],
    stream-model/src/store/dual_store.rs:173-175 *)
Definition store (A : Type) := option (list (Z * A)).
Definition held {A} (s : store A) : list (Z * A) := match s with Some m => m | None => [] end.

(** [sync_metadata] of a message with all objects, sync/controller.rs:147-171:
    a message without objects changes nothing *)
Definition receive_all {A} (all : list (Z * A)) (s : store A) : store A :=
  match all with [] => s | _ => Some all end.

(** [LSUpdate], stream-model/src/store/actions.rs:10-19 *)
Inductive change (A : Type) := Mod (k : Z) (a : A) | Del (k : Z).
Arguments Mod {A} _ _.
Arguments Del {A} _.

(** [sync_metadata] of a message with changes, sync/controller.rs:173-201; to
    delete from a store that never changed is no change, dual_store.rs:303-386 *)
Definition receive_change {A} (s : store A) (c : change A) : store A :=
  match c, s with
  | Mod k a, _ => Some (put k a (held s))
  | Del k, Some m => Some (del k m)
  | Del _, None => None
  end.
Definition receive_changes {A} (cs : list (change A)) (s : store A) : store A := fold_left receive_change cs s.

(** what a look-up finds: the object, nothing, or the time is up,
    sync/mod.rs:83-93, 95-138. A look-up that waits returns what one begun at the first
    change would *)
Inductive found (A : Type) := Found (a : A) | Nothing | TimedOut.
Arguments Found {A} _.
Arguments Nothing {A}.
Arguments TimedOut {A}.
Definition look {A} (search : list (Z * A) -> option A) (s : store A) : found A :=
  match s with
  | None => TimedOut
  | Some m => match search m with Some a => Found a | None => Nothing end
  end.

(** of [SpuSpec] its id and its public endpoints *)
Record spu := mkSpu { s_id : Z; s_public : Z; s_local : option Z }.

(** [look_up_by_id], sync/mod.rs:151-165 *)
Fixpoint with_id (id : Z) (m : list (Z * spu)) : option spu :=
  match m with [] => None | (_, s) :: r => if s_id s =? id then Some s else with_id id r end.

(** the address of [connect_to_leader], spu.rs:106-113 *)
Definition address (use_local : bool) (s : spu) : Z :=
  match s_local s with
  | Some local => if use_local then local else s_public s
  | None => s_public s
  end.

(** * The client and the servers *)

(** a connection: its number, its address, the process at its other end *)
Record conn := mkConn { n_number : Z; n_addr : Z; n_server : Z }.

(** an SPU the pool is connecting to, holding its lock: spu.rs:131-147, 218-234 *)
Record attempt := mkAttempt { a_leader : Z; a_addr : Z }.

Record world := mkWorld {
  w_local : bool;                  (* [use_spu_local_address] *)
  w_watch : bool;                  (* the connection to the SC is up *)
  w_parts : store Z;               (* partitions and their leaders *)
  w_spus : store spu;
  w_pool : list (Z * conn);        (* [spu_clients] *)
  w_stale : list Z;                (* the connections whose [stale] is set *)
  w_trying : option attempt;
  w_next : Z;
  w_up : list (Z * Z) }.           (* who listens at an address *)

Definition set_watch b w := mkWorld (w_local w) b (w_parts w) (w_spus w) (w_pool w) (w_stale w) (w_trying w) (w_next w) (w_up w).
Definition set_parts p w := mkWorld (w_local w) (w_watch w) p (w_spus w) (w_pool w) (w_stale w) (w_trying w) (w_next w) (w_up w).
Definition set_spus s w := mkWorld (w_local w) (w_watch w) (w_parts w) s (w_pool w) (w_stale w) (w_trying w) (w_next w) (w_up w).
Definition set_pool p w := mkWorld (w_local w) (w_watch w) (w_parts w) (w_spus w) p (w_stale w) (w_trying w) (w_next w) (w_up w).
Definition set_stale s w := mkWorld (w_local w) (w_watch w) (w_parts w) (w_spus w) (w_pool w) s (w_trying w) (w_next w) (w_up w).
Definition set_trying t w := mkWorld (w_local w) (w_watch w) (w_parts w) (w_spus w) (w_pool w) (w_stale w) t (w_next w) (w_up w).
Definition set_next n w := mkWorld (w_local w) (w_watch w) (w_parts w) (w_spus w) (w_pool w) (w_stale w) (w_trying w) n (w_up w).
Definition set_up u w := mkWorld (w_local w) (w_watch w) (w_parts w) (w_spus w) (w_pool w) (w_stale w) (w_trying w) (w_next w) u.

(** [Fluvio::connect_with_connector] and [spu_pool], fluvio.rs:115-169 *)
Definition start (use_local : bool) (up : list (Z * Z)) : world := mkWorld use_local true None None [] [] None 0 up.

Definition alive (w : world) (c : conn) : bool :=
  match get (n_addr c) (w_up w) with Some s => s =? n_server c | None => false end.
Definition known_stale (w : world) (c : conn) : bool := existsb (Z.eqb (n_number c)) (w_stale w).

(** * The pool *)

(** [Timeout]: the metadata never came; the other errors are
    [PartitionNotFound], [SPUNotFound] and those of sockets *)
Inductive error := Timeout | PartitionNotFound | SpuNotFound | ConnectFailed | SendFailed.
(** [Connecting]: the caller waits for its connection, [Held]: for the lock *)
Inductive answer := Given (c : conn) | Failed (e : error) | Connecting | Held.

(** [connect_to_leader] up to the connecting, spu.rs:101-116 *)
Definition begin_connect (w : world) (leader : Z) : world * answer :=
  match look (with_id leader) (w_spus w) with
  | TimedOut => (w, Failed Timeout)
  | Nothing => (w, Failed SpuNotFound)
  | Found s => (set_trying (Some (mkAttempt leader (address (w_local w) s))) w, Connecting)
  end.

(** the end of the connecting: spu.rs:117-124, and 142-147 or 228-235; a
    request sent on a connection just made is taken to be sent *)
Definition finish (w : world) : world * answer :=
  match w_trying w with
  | None => (w, Held)
  | Some a =>
      let w := set_trying None w in
      match get (a_addr a) (w_up w) with
      | None => (w, Failed ConnectFailed)
      | Some s =>
          let c := mkConn (w_next w) (a_addr a) s in
          (set_next (w_next w + 1) (set_pool (put (a_leader a) c (w_pool w)) w), Given c)
      end
  end.

(** [create_serial_socket_from_leader], spu.rs:127-147 *)
Definition serial_from_leader (w : world) (leader : Z) : world * answer :=
  match w_trying w with
  | Some _ => (w, Held)
  | None =>
      match get leader (w_pool w) with
      | Some c => if known_stale w c then begin_connect (set_pool (del leader (w_pool w)) w) leader else (w, Given c)
      | None => begin_connect w leader
      end
  end.

(** the leader of a partition, spu.rs:180-190, 205-216 and
    producer/partition_producer.rs:149-164 *)
Definition leader_of (w : world) (p : Z) : found Z := look (get p) (w_parts w).

(** [create_serial_socket], spu.rs:176-193, and [connect_spu],
    producer/partition_producer.rs:263-266 *)
Definition serial (w : world) (p : Z) : world * answer :=
  match leader_of w p with
  | TimedOut => (w, Failed Timeout)
  | Nothing => (w, Failed PartitionNotFound)
  | Found leader => serial_from_leader w leader
  end.

(** [create_stream_with_version], spu.rs:196-235; [sent]: a write to a connection
    that has ended is accepted nevertheless. Nobody looks whether the connection
    in the pool is stale *)
Definition stream (w : world) (p : Z) (sent : bool) : world * answer :=
  match leader_of w p with
  | TimedOut => (w, Failed Timeout)
  | Nothing => (w, Failed PartitionNotFound)
  | Found leader =>
      match w_trying w with
      | Some _ => (w, Held)
      | None =>
          match get leader (w_pool w) with
          | Some c => (w, if alive w c || sent then Given c else Failed SendFailed)
          | None => begin_connect w leader
          end
      end
  end.

(** * Histories *)

(** [AllParts]-[ChangeSpus]: a message of the SC, lost without a connection to it;
    [Lost]: the connection to the SC ends, and with it the [dispatch_loop]s,
    sync/controller.rs:123-137, which nobody starts again; [Stop], [Listen]: a
    server at an address; [Noticed]: the end of a connection is seen,
    multiplexing.rs:419-428, 508-509; [Overdue]: a request was not answered in
    time, multiplexing.rs:164-180; the others: calls of the pool *)
Inductive event :=
  | AllParts (l : list (Z * Z)) | ChangeParts (l : list (change Z))
  | AllSpus (l : list (Z * spu)) | ChangeSpus (l : list (change spu))
  | Lost
  | Stop (addr : Z) | Listen (addr server : Z)
  | Noticed (c : conn) | Overdue (c : conn)
  | Serial (p : Z) | Stream (p : Z) (sent : bool) | Finish.

Definition step (w : world) (e : event) : world :=
  match e with
  | AllParts l => if w_watch w then set_parts (receive_all l (w_parts w)) w else w
  | ChangeParts l => if w_watch w then set_parts (receive_changes l (w_parts w)) w else w
  | AllSpus l => if w_watch w then set_spus (receive_all l (w_spus w)) w else w
  | ChangeSpus l => if w_watch w then set_spus (receive_changes l (w_spus w)) w else w
  | Lost => set_watch false w
  | Stop a => set_up (del a (w_up w)) w
  | Listen a s => set_up (put a s (w_up w)) w
  | Noticed c => if alive w c || (w_next w <=? n_number c) then w else set_stale (n_number c :: w_stale w) w
  | Overdue c => if w_next w <=? n_number c then w else set_stale (n_number c :: w_stale w) w
  | Serial p => fst (serial w p)
  | Stream p sent => fst (stream w p sent)
  | Finish => fst (finish w)
  end.
Definition run (w : world) (es : list event) : world := fold_left step es w.

(** a call that nothing comes in between of *)
Definition whole (r : world * answer) : world * answer :=
  match snd r with Connecting => finish (fst r) | _ => r end.

(** the opening of a consumer stream, consumer/mod.rs:395-456 without a consumer
    id: a serial socket, the fetching of the offsets over it, the stream; [es]:
    what happens before the stream. Without a server at the other end the fetching
    fails, and the connection is stale then: multiplexing.rs:164-180, 508-509 *)
Definition open_consumer (w : world) (p : Z) (es : list event) (sent : bool) : world * answer :=
  match whole (serial w p) with
  | (w1, Given c) =>
      if alive w1 c then whole (stream (run w1 es) p sent)
      else (set_stale (n_number c :: w_stale w1) w1, Failed SendFailed)
  | r => r
  end.

(** [connect_spu_with_reconnect], producer/partition_producer.rs:268-282, without
    the waiting: [None] for as long as it goes on; [ess]: what happens before each
    attempt *)
Fixpoint reconnect (w : world) (p : Z) (ess : list (list event)) : world * option conn :=
  match ess with
  | [] => (w, None)
  | es :: rest =>
      match whole (serial (run w es) p) with
      | (w1, Given c) => (w1, Some c)
      | (w1, _) => reconnect w1 p rest
      end
  end.

(** [topic_exists], spu.rs:149-152: [first] is partition 0 of the topic *)
Definition topic_exists (w : world) (first : Z) : found bool :=
  match leader_of w first with Found _ => Found true | Nothing => Found false | TimedOut => TimedOut end.

(** * The producers of a topic *)

(** of a [TopicProducer] how many batches each partition has queued, and who holds
    the lock of its [ProducerPool]: a [push_record] that waits for room in the
    queue of a partition, or a [flush] that waits for partitions one after the
    other: producer/mod.rs:176-193, 255-309, accumulator.rs:163-179. A record of a
    partition with an error is refused before all this, mod.rs:281-283 *)
Inductive holder := Nobody | Pushing (p : Z) | Flushing (ps : list Z).
Record topic := mkTopic { t_size : Z; t_queue : list (Z * Z); t_holder : holder }.
Definition queued (t : topic) (p : Z) : Z := match get p (t_queue t) with Some n => n | None => 0 end.

(** [Push]: [send] of a record for a partition, [fresh]: in a batch of its own;
    [Flush]: [flush]; [Sent]: the producer of a partition, once it is connected to
    a leader, has taken some of its batches, partition_producer.rs:167-188;
    [Flushed]: the one a flush waits for has, and notifies it; [ok]: the batches
    could be sent *)
Inductive topic_event := Push (p : Z) (fresh : bool) | Flush | Sent (p n : Z) | Flushed (ok : bool).

(** [push_record] of the accumulator with room in the queue, accumulator.rs:103-160 *)
Definition enqueue (t : topic) (p : Z) (fresh : bool) : topic :=
  let n := queued t p in
  mkTopic (t_size t) (put p (if fresh || (n =? 0) then n + 1 else n) (t_queue t)) Nobody.

(** what happens, and whether a call returned at once *)
Definition topic_step (t : topic) (e : topic_event) : topic * bool :=
  match e with
  | Push p fresh =>
      match t_holder t with
      | Nobody =>
          if queued t p <? t_size t then (enqueue t p fresh, true)
          else (mkTopic (t_size t) (t_queue t) (Pushing p), false)
      | _ => (t, false)
      end
  | Flush =>
      match t_holder t with
      | Nobody => match t_queue t with
                  | [] => (t, true)
                  | q => (mkTopic (t_size t) q (Flushing (map fst q)), false)
                  end
      | _ => (t, false)
      end
  | Sent p n =>
      let t1 := mkTopic (t_size t) (put p (Z.max 0 (queued t p - Z.max 0 n)) (t_queue t)) (t_holder t) in
      match t_holder t with
      | Pushing p' => if (p =? p') && (queued t1 p <? t_size t) then (enqueue t1 p true, true) else (t1, false)
      | _ => (t1, false)
      end
  | Flushed ok =>
      match t_holder t with
      | Flushing (p :: ps) =>
          let q := put p 0 (t_queue t) in
          if ok then match ps with
                     | [] => (mkTopic (t_size t) q Nobody, true)
                     | _ => (mkTopic (t_size t) q (Flushing ps), false)
                     end
          else (mkTopic (t_size t) q Nobody, true)
      | _ => (t, false)
      end
  end.
Definition topic_run (t : topic) (es : list topic_event) : topic := fold_left (fun t e => fst (topic_step t e)) es t.
