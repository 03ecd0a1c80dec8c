(** One partition from end to end: any number of producers, the SPU that leads
    the partition, and a consumer.  The parts are those of ProducerModel,
    ProduceModel, StorageModel and StreamModel; this file puts them together.
    Source: crates/fluvio-spu/src/services/public/produce_handler.rs,
    crates/fluvio/src/producer/partition_producer.rs.

    Simplifications:
    - those of the parts;
    - a producer does not look at what the others do, so its whole run (with the
      answers it gets) is given in advance, and the batches it sends are handled
      in the order in which they are on its connection
      (fluvio-socket/src/multiplexing.rs: one connection, requests in order;
      fluvio-spu/src/services/public/mod.rs:117-141: one request of a connection after
      the other); batches of different producers are handled in any order;
    - no SmartModules, neither in the requests nor in the topic; the handling of
      a batch is one step (the storage is locked while it is written,
      storage/mod.rs:132-164);
    - consumers do not change what is stored, so one consumer stands for all. *)
From Verif Require Export ProducerModel StreamModel.

(** A producer of the partition: its configuration and its run. *)
Record client := mkClient { cl_conf : pconf; cl_events : list pevent }.
Definition final (a : client) : pstate := fst (prun (cl_conf a) producer0 (cl_events a)).
Definition returned (a : client) : list (option outcome) := snd (prun (cl_conf a) producer0 (cl_events a)).
(** The batches that reach the SPU, partition_producer.rs:190-232: every batch of
    a request is an entry of its own for the partition. *)
Definition on_wire (a : client) : list (batch bytes) := concat (s_wire (final a)).

(** A batch that was handled: whose it is, whether the log end moved, and what
    was answered. *)
Record arrival := mkArrival { v_from : nat; v_batch : batch bytes; v_stored : bool; v_answer : presult }.

(** The SPU handles one batch, produce_handler.rs:56-162 (see
    [produce_partition], [wait_for_ack]); no SmartModule *)
Definition unchanged (l : list (batch bytes)) : option (list (batch bytes)) := Some l.
Definition serve (c : config) (iso : isolation) (now isr : Z) (comp : option (option Z)) (first : option leader) (later : list leader)
  (r : replica) (i : nat) (b : batch bytes) : replica * arrival :=
  let (ld, res) := produce_partition c now unchanged unchanged (Some (mkLeader r isr comp)) [b] in
  let r' := match ld with Some x => l_store x | None => r end in
  (r', mkArrival i b (get_leo r <? get_leo r') (wait_for_ack iso res first later)).

(** The partition before and after the consumer starts to read. *)
Inductive phase := Before (r : replica) | Open (y : sys).
Definition store_of (ph : phase) : replica := match ph with Before r => r | Open y => y_store y end.
Definition with_log (ph : phase) (r : replica) : phase := match ph with Before _ => Before r | Open y => Open (set_store y r) end.
