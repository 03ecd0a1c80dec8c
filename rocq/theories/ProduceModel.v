(** Model of the produce service of an SPU.
    Source: crates/fluvio-spu/src/services/public/produce_handler.rs,
    crates/fluvio-spu/src/replication/leader/replica_state.rs [write_record_set],
    crates/fluvio-spu/src/storage/mod.rs [write_record_set].

    Simplifications:
    - the SmartModules of the request and the deduplication module of the topic
      are arbitrary functions on record sets ([pre], [dedup]);
    - no mirror topics; file system calls succeed, so [PartitionFull] does not
      occur;
    - [hw()] and [offset_listener] of the leader are the watermark of its
      storage: the publisher is updated together with it
      (storage/mod.rs:92-103, 157-161). *)
From Verif Require Export ReplicationModel.

(** [ErrorCode], the codes that occur here.  [NoResponse]: the handler panicked,
    nothing is sent. *)
Inductive pcode :=
  | NoError | NotLeaderForPartition | SmartModuleError | TopicNotFound | CompressionError
  | MessageTooLarge | PartitionShortCircuited | StorageErrorCode | RequestTimedOut | NoResponse.

(** What the handler sees of a partition led by this SPU: the storage, the
    number of in-sync replicas, the compression required by the topic ([None]:
    the replica is not in the local store; [Some None]: any). *)
Record leader := mkLeader { l_store : replica; l_isr : Z; l_compression : option (option Z) }.
Definition with_store (l : leader) (r : replica) : leader := mkLeader r (l_isr l) (l_compression l).

(** [PartitionWriteResult], produce_handler.rs:52-58, 404-427 *)
Record presult := mkPres { p_base : Z; p_leo : Z; p_code : pcode }.
Definition failed (e : pcode) : presult := mkPres 0 0 e.
Definition filtered : presult := mkPres 0 0 NoError.

(** [validate_records], produce_handler.rs:304-328 *)
Definition validate_records (l : list (batch bytes)) (alg : option Z) : bool :=
  forallb (fun b => match get_compression (b_hdr b) with
                    | Err _ => false
                    | Ok x => match alg with None => true | Some a => x =? a end
                    end) l.

(** [write_record_set] of the leader and of the shared storage,
    replica_state.rs:347-366, storage/mod.rs:132-164: base offset and log end,
    or the error *)
Definition write_record_set (c : config) (now : Z) (dedup : list (batch bytes) -> option (list (batch bytes)))
  (ld : leader) (l : list (batch bytes)) : leader * (Z * Z + pcode) :=
  match dedup l with
  | None => (ld, inr SmartModuleError)
  | Some l' =>
      let r := l_store ld in
      if total_records l' =? 0 then (ld, inl (get_hw r, get_leo r))
      else match write_recordset c now r l' (l_isr ld =? 1) with
           | (r', None) => (with_store ld r', inl (get_leo r, get_leo r'))
           | (r', Some e) =>
               (with_store ld r',
                inr match e with
                    | BatchTooBig | BatchExceededSegment => MessageTooLarge
                    | ShortCircuited => PartitionShortCircuited
                    | Panicked => NoResponse
                    | _ => StorageErrorCode
                    end)
           end
  end.

(** [handle_produce_partition], produce_handler.rs:170-253 *)
Definition handle_partition (c : config) (now : Z) (dedup : list (batch bytes) -> option (list (batch bytes)))
  (ld : leader) (l : list (batch bytes)) : leader * presult :=
  match l_compression ld with
  | None => (ld, failed TopicNotFound)
  | Some alg =>
      if validate_records l alg then
        match write_record_set c now dedup ld l with
        | (ld', inl (base, leo)) => (ld', mkPres base leo NoError)
        | (ld', inr e) => (ld', failed e)
        end
      else (ld, failed CompressionError)
  end.

(** The body of the loop of [handle_produce_topic], produce_handler.rs:104-162:
    [None] is a partition this SPU does not lead *)
Definition produce_partition (c : config) (now : Z) (pre dedup : list (batch bytes) -> option (list (batch bytes)))
  (ld : option leader) (l : list (batch bytes)) : option leader * presult :=
  match ld with
  | None => (None, failed NotLeaderForPartition)
  | Some ld =>
      match pre l with
      | None => (Some ld, failed SmartModuleError)
      | Some l' =>
          if total_records l' =? 0 then (Some ld, filtered)
          else let (ld', res) := handle_partition c now dedup ld l' in (Some ld', res)
      end
  end.

(** The wait for one partition in [wait_for_acks], produce_handler.rs:346-383.
    [looks]: the leader states the task sees one after the other, the first when
    it starts to wait and then at every change of the watermark it is woken for
    before the timeout. *)
Fixpoint wait_hw (leo : Z) (looks : list leader) : pcode :=
  match looks with
  | [] => RequestTimedOut
  | ld :: t => if leo <=? get_hw (l_store ld) then NoError else wait_hw leo t
  end.
Definition wait_for_ack (iso : isolation) (res : presult) (first : option leader) (later : list leader) : presult :=
  match iso with
  | ReadUncommitted => res
  | ReadCommitted =>
      match p_code res with
      | NoError => mkPres (p_base res) (p_leo res)
                     match first with
                     | None => NotLeaderForPartition
                     | Some ld => wait_hw (p_leo res) (ld :: later)
                     end
      | _ => res
      end
  end.

(** [handle_produce_request], produce_handler.rs:56-83, and [into_response]: all
    partitions are handled in order, then waited for in order.  For every
    partition: its index, the records, the state of the leader when it is its
    turn to be written, the states seen while waiting.  The result: the state
    the write leaves, and the response. *)
Record turn := mkTurn { t_index : Z; t_now : Z; t_records : list (batch bytes); t_leader : option leader;
                        t_first : option leader; t_later : list leader }.
Definition handle_request (c : config) (iso : isolation) (pre dedup : list (batch bytes) -> option (list (batch bytes)))
  (ts : list turn) : list (Z * presult * option leader) :=
  let written := map (fun t => (t, produce_partition c (t_now t) pre dedup (t_leader t) (t_records t))) ts in
  map (fun x => match x with (t, (ld', res)) => (t_index t, wait_for_ack iso res (t_first t) (t_later t), ld') end) written.
