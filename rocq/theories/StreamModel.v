(** Model of a consumer stream: the SPU side and the client side.
    Source: crates/fluvio-spu/src/services/public/stream_fetch.rs,
    crates/fluvio-spu/src/smartengine/batch.rs, crates/fluvio/src/consumer/mod.rs,
    crates/fluvio-types/src/event.rs [OffsetPublisher, OffsetChangeListener].

    Simplifications:
    - one stream, one partition, a connection that stays up; every
      acknowledgement the client produces is sent (the client drops one only
      when 100 of them are queued, mod.rs:549);
    - SmartModules: one chain, a function of the records of each input batch
      that does not fail ([smart]: base offset and records to records), without
      state between batches; uncompressed batches;
    - the batch made by a SmartModule reaches the client as it is (encoding it is
      the subject of C05 and C06);
    - the end event (the client closes the stream) and topic deletion are not
      modelled: they only stop the stream. *)
From Verif Require Export ReplicationModel.

(** * SmartModules: [process_batch], smartengine/batch.rs:41-141 *)

Definition smart := Z -> list rec -> list rec.

(** [Record::add_base_offset], data.rs:452-454 *)
Definition add_base_offset (x : Z) (r : rec) : rec := set_off (r_off r + x) r.

(** The batch under construction: base offset (-1: not set), last offset delta,
    records; and the bytes so far. *)
Record outb := mkOut { q_base : Z; q_delta : Z; q_recs : list rec; q_bytes : Z }.
Definition out0 : outb := mkOut (-1) (-1) [] 0.

(** The loop.  The input batches are those of the slice, decoded (the iterator,
    fluvio-storage/src/iterators.rs:33-151, and the decoder of the SmartModule
    input). *)
Fixpoint process_from (sm : smart) (max_bytes : Z) (l : list (batch bytes)) (a : outb) : res outb :=
  match l with
  | [] => Ok a
  | b :: t =>
      let* m := to_memory b in
      let out := sm (b_base b) (b_recs m) in
      let add := h_last_delta (b_hdr b) + 1 in
      match out with
      | [] => process_from sm max_bytes t
                (if q_base a =? -1 then a else mkOut (q_base a) (q_delta a + add) (q_recs a) (q_bytes a))
      | _ =>
          let base := if q_base a =? -1 then b_base b else q_base a in
          let recs := map (add_base_offset (base - b_base b)) out in
          let size := c_size memory_codec recs in
          if max_bytes <? q_bytes a + size then Ok (mkOut base (q_delta a) (q_recs a) (q_bytes a))
          else process_from sm max_bytes t (mkOut base (q_delta a + add) (q_recs a ++ recs) (q_bytes a + size))
      end
  end.
Definition process_batch (sm : smart) (max_bytes : Z) (l : list (batch bytes)) : res (batch (list rec)) :=
  let* a := process_from sm max_bytes l out0 in
  Ok (mkBatch (q_base a) 0 (with_last_delta default_header (q_delta a)) 0 (q_recs a)).

(** * Responses *)
Inductive reply :=
  | Raw (records : bytes)                              (* the slice of the log file *)
  | Processed (b : batch (list rec)) (next_filter : Z) (* made by a SmartModule *)
  | Failure.                                           (* an error code *)

(** Stream parameters *)
Record params := mkParams { p_iso : isolation; p_max : Z; p_sm : option smart }.
(** [max_fetch_bytes], stream_fetch.rs:163-167 *)
Definition max_fetch (p : params) : Z := match p_sm p with None => p_max p | Some _ => 2 ^ 32 - 1 end.
(** [OffsetInfo::isolation]: where a read ends *)
Definition slice_end (iso : isolation) (sl : rslice) : Z :=
  match iso with ReadCommitted => sl_hw sl | ReadUncommitted => sl_leo sl end.
(** The value the listener of the leader sees *)
Definition log_limit (iso : isolation) (r : replica) : Z :=
  match iso with ReadCommitted => get_hw r | ReadUncommitted => get_leo r end.

(** [send_back_records] and [send_processed_response], stream_fetch.rs:350-544:
    the offset, whether to wait for the consumer, and what was sent; [None]: the
    stream ends with an error. *)
Definition send_back (p : params) (r : replica) (start : Z) : option (Z * bool * option reply) :=
  match read_partition_slice r start (max_fetch p) (p_iso p) with
  | Fail _ => None
  | Done sl =>
      let records := match sl_bytes sl with Some b => b | None => [] end in
      let next := slice_end (p_iso p) sl in
      match records with
      | [] => Some (start, false, None)
      | _ =>
          match p_sm p with
          | None => Some (next, true, Some (Raw records))
          | Some sm =>
              match process_batch sm (p_max p) (receive records) with
              | Err _ => None
              | Ok b => match b_recs b with
                        | [] => Some (next, false, None)
                        | _ => Some (next, true, Some (Processed b (get_last_offset b + 1)))
                        end
              end
          end
      end
  end.

(** * The client: consumer/mod.rs:327-372, 613-632 and
      [next_offset_for_fetch], fluvio-spu-schema/src/fetch/response.rs:85-91 *)
Inductive item := Rec (c : crec) | ErrItem.
Definition shown (s : Z) (m : batch (list rec)) : list item :=
  map Rec (filter (fun c => s <=? cr_offset c) (into_consumer_records m 0)).
Definition items (s : Z) (x : reply) : list item :=
  match x with
  | Raw records => flat_map (fun b => match to_memory b with Ok m => shown s m | Err _ => [ErrItem] end) (receive records)
  | Processed b _ => shown s b
  | Failure => [ErrItem]
  end.
Definition next_offset_for_fetch (x : reply) : option Z :=
  match x with
  | Raw records => rset_last_offset (receive records)
  | Processed b next => if 0 <? next then Some next else rset_last_offset [b]
  | Failure => None
  end.

(** * The protocol: [StreamFetchHandler::process], stream_fetch.rs:220-341 *)

(** Control: about to read from an offset, waiting for one of the two
    listeners, or finished. *)
Inductive control := Sending (start : Z) | Waiting | Ended.
Record sys := mkSys {
  y_store : replica;        (* the leader's storage *)
  y_pc : control;
  y_last : Z;               (* last_partition_offset *)
  y_known : option Z;       (* last_known_consumer_offset *)
  y_pub : Z;                (* published consumer offset *)
  y_ack_seen : Z;           (* last value the consumer offset listener returned *)
  y_end_seen : Z;           (* last value the leader offset listener returned *)
  y_net : list reply;       (* responses under way, oldest first *)
  y_acks : list Z;          (* acknowledgements under way, oldest first *)
  y_out : list item;        (* what the application was given *)
}.
(** [INIT_OFFSET] = -1, stream_fetch.rs; listeners start with 0, event.rs. *)
Definition start_stream (r : replica) (s : Z) : sys :=
  mkSys r (Sending s) 0 None (-1) 0 0 [] [] [].

(** After [send_back_records], stream_fetch.rs:225-233, 279-290, 320-332 *)
Definition do_send (p : params) (y : sys) (start : Z) : sys :=
  match send_back p (y_store y) start with
  | None => mkSys (y_store y) Ended (y_last y) (y_known y) (y_pub y) (y_ack_seen y) (y_end_seen y)
                  (y_net y ++ [Failure]) (y_acks y) (y_out y)
  | Some (offset, wait, x) =>
      mkSys (y_store y) Waiting offset (if wait : bool then None else Some offset) (y_pub y) (y_ack_seen y) (y_end_seen y)
            (y_net y ++ match x with Some x => [x] | None => [] end) (y_acks y) (y_out y)
  end.
(** The consumer offset listener fires, stream_fetch.rs:251-291 *)
Definition on_ack (y : sys) : sys :=
  let a := y_pub y in
  let y' := mkSys (y_store y) (y_pc y) (y_last y) (y_known y) (y_pub y) a (y_end_seen y) (y_net y) (y_acks y) (y_out y) in
  if a =? -1 then y'
  else if y_last y <=? a then
    mkSys (y_store y) (y_pc y) (y_last y) (Some a) (y_pub y) a (y_end_seen y) (y_net y) (y_acks y) (y_out y)
  else mkSys (y_store y) (Sending a) (y_last y) (y_known y) (y_pub y) a (y_end_seen y) (y_net y) (y_acks y) (y_out y).
(** The leader offset listener fires, stream_fetch.rs:293-333 *)
Definition on_end (p : params) (y : sys) : sys :=
  let u := log_limit (p_iso p) (y_store y) in
  let move pc last := mkSys (y_store y) pc last (y_known y) (y_pub y) (y_ack_seen y) u (y_net y) (y_acks y) (y_out y) in
  match y_known y with
  | None => move Waiting u
  | Some k => if u <=? k then move Waiting u else move (Sending k) (y_last y)
  end.
(** The client handles the oldest response, mod.rs:536-551 *)
Definition on_reply (s : Z) (y : sys) : sys :=
  match y_net y with
  | [] => y
  | x :: t => mkSys (y_store y) (y_pc y) (y_last y) (y_known y) (y_pub y) (y_ack_seen y) (y_end_seen y) t
                (y_acks y ++ match next_offset_for_fetch x with Some a => [a] | None => [] end)
                (y_out y ++ items s x)
  end.
(** The SPU publishes the oldest acknowledgement, offset_update.rs *)
Definition on_update (y : sys) : sys :=
  match y_acks y with
  | [] => y
  | a :: t => mkSys (y_store y) (y_pc y) (y_last y) (y_known y) a (y_ack_seen y) (y_end_seen y) (y_net y) t (y_out y)
  end.
Definition set_store (y : sys) (r : replica) : sys :=
  mkSys r (y_pc y) (y_last y) (y_known y) (y_pub y) (y_ack_seen y) (y_end_seen y) (y_net y) (y_acks y) (y_out y).
