(** Model of the SmartModule engine: modules with state, chains, errors.
    Source: crates/fluvio-smartengine/src/engine/wasmtime/engine.rs:178-257 and
    transforms/{simple_transform,aggregate}.rs,
    crates/fluvio-smartmodule-derive/src/generator/*.rs (the code around the
    user's function), crates/fluvio-smartmodule/src/{lib,input}.rs,
    crates/fluvio-spu/src/smartengine/batch.rs,
    crates/fluvio-spu/src/services/public/stream_fetch.rs:350-544,
    crates/fluvio-spu/src/replication/leader/replica_state.rs:347-382.

    Simplifications:
    - a WebAssembly instance is its memory, a list of bytes, and the user's
      function an arbitrary function of the memory and of what it is given;
      instances of a chain do not share memory;
    - a user's function sees a record as [SmartModuleRecord] (lib.rs:48-84) shows
      it: offset, timestamp, key and value; sums of offsets and of timestamps do
      not overflow;
    - encoding records for a module and decoding its output gives the records back
      (C04); uncompressed batches; the fuel limit and the memory limit are part of
      the function (it may trap). *)
From Verif Require Export LookbackModel.

(** * The user's functions *)

(** [SmartModuleRecord], lib.rs:48-84 *)
Record seen_rec := mkSeen { v_off : Z; v_ts : Z; v_key : option bytes; v_val : bytes }.
Definition show (base ts : Z) (r : rec) : seen_rec := mkSeen (base + r_off r) (ts + r_ts r) (r_key r) (r_val r).

Inductive ures (A : Type) := UOk (a : A) | UErr | UTrap.
Arguments UOk {A}.
Arguments UErr {A}.
Arguments UTrap {A}.
Definition kv := (option bytes * bytes)%type.   (* key and value *)
Inductive ufun :=
  | UFilter (f : bytes -> seen_rec -> bytes * ures bool)
  | UMap (f : bytes -> seen_rec -> bytes * ures kv)
  | UFilterMap (f : bytes -> seen_rec -> bytes * ures (option kv))
  | UArrayMap (f : bytes -> seen_rec -> bytes * ures (list kv))
  | UAggregate (f : bytes -> bytes -> seen_rec -> bytes * ures bytes).   (* accumulator and record *)

(** An instance: function, memory, accumulator (transforms/aggregate.rs:22-25) *)
Record inst := mkInst { n_fun : ufun; n_mem : bytes; n_acc : bytes }.

Definition with_kv (p : kv) (r : rec) : rec := mkRec (r_attr r) (r_ts r) (r_off r) (fst p) (snd p) (r_headers r).
(** [Record::new_key_value], data.rs:485-492 *)
Definition new_record (p : kv) : rec := mkRec 0 0 0 (fst p) (snd p) 0.

(** One turn of the loop around the user's function: generator/filter.rs:18-40,
    map.rs:18-38, filter_map.rs:19-40, array_map.rs:18-42, aggregate.rs:74-96 *)
Inductive turn := Emit (l : list rec) | Wrong | Trap.
Definition apply_fun (i : inst) (base ts : Z) (r : rec) : inst * turn :=
  let v := show base ts r in
  let back {A} (x : bytes * ures A) (f : A -> list rec) : inst * turn :=
    (mkInst (n_fun i) (fst x) (n_acc i), match snd x with UOk a => Emit (f a) | UErr => Wrong | UTrap => Trap end) in
  match n_fun i with
  | UFilter f => back (f (n_mem i) v) (fun b : bool => if b then [r] else [])
  | UMap f => back (f (n_mem i) v) (fun p => [with_kv p r])
  | UFilterMap f => back (f (n_mem i) v) (fun o => match o with Some p => [with_kv p r] | None => [] end)
  | UArrayMap f => back (f (n_mem i) v) (fun l => map new_record l)
  | UAggregate f =>
      let x := f (n_mem i) (n_acc i) v in
      match snd x with
      | UOk a => (mkInst (n_fun i) (fst x) a, Emit [with_kv (r_key r, a) r])
      | UErr => (mkInst (n_fun i) (fst x) (n_acc i), Wrong)
      | UTrap => (mkInst (n_fun i) (fst x) (n_acc i), Trap)
      end
  end.

(** [SmartModuleTransformRuntimeError], fluvio-protocol/src/link/smartmodule.rs:12-44
    (without hint and kind) *)
Record smerr := mkErr { x_off : Z; x_key : option bytes; x_val : bytes }.
Definition error_of (base : Z) (r : rec) : smerr := mkErr (base + r_off r) (r_key r) (r_val r).

(** The loop: it stops at the first error, with what came out before;
    [None]: the call itself fails (transforms/simple_transform.rs:55-76, aggregate.rs:73-98);
    what is left in the instance then does not matter, the stream ends or the
    write is refused. *)
Fixpoint run_module (i : inst) (base ts : Z) (l : list rec) : option (inst * list rec * option smerr) :=
  match l with
  | [] => Some (i, [], None)
  | r :: t =>
      match apply_fun i base ts r with
      | (_, Trap) => None
      | (i', Wrong) => Some (i', [], Some (error_of base r))
      | (i', Emit out) => match run_module i' base ts t with
                          | None => None
                          | Some (i2, out2, e) => Some (i2, out ++ out2, e)
                          end
      end
  end.

(** [SmartModuleChainInstance::process], engine.rs:181-224.  The last module is
    treated like the others: what it returns is returned. *)
Fixpoint run_chain (is : list inst) (base ts : Z) (l : list rec) : option (list inst * list rec * option smerr) :=
  match is with
  | [] => Some ([], l, None)
  | i :: t =>
      match run_module i base ts l with
      | None => None
      | Some (i', out, Some e) => Some (i' :: t, out, Some e)
      | Some (i', out, None) =>
          match run_chain t base ts out with
          | None => None
          | Some (t', out', e) => Some (i' :: t', out', e)
          end
      end
  end.

(** * [process_batch], smartengine/batch.rs:41-141 *)
Definition add_out (a : outb) (base add : Z) (recs : list rec) (size : Z) : outb := mkOut base (q_delta a + add) (q_recs a ++ recs) (q_bytes a + size).
Fixpoint engine_from (is : list inst) (max_bytes : Z) (l : list (batch bytes)) (a : outb) : option (list inst * outb * option smerr) :=
  match l with
  | [] => Some (is, a, None)
  | b :: t =>
      match to_memory b with
      | Err _ => None
      | Ok m =>
          match run_chain is (b_base b) (h_first_ts (b_hdr b)) (b_recs m) with
          | None => None
          | Some (is', out, e) =>
              let add := h_last_delta (b_hdr b) + 1 in
              let go a' := match e with Some _ => Some (is', a', e) | None => engine_from is' max_bytes t a' end in
              match out with
              | [] => go (if q_base a =? -1 then a else mkOut (q_base a) (q_delta a + add) (q_recs a) (q_bytes a))
              | _ =>
                  let base := if q_base a =? -1 then b_base b else q_base a in
                  let recs := map (add_base_offset (base - b_base b)) out in
                  let size := c_size memory_codec recs in
                  if max_bytes <? q_bytes a + size then Some (is', mkOut base (q_delta a) (q_recs a) (q_bytes a), e)
                  else go (add_out a base add recs size)
              end
          end
      end
  end.
Definition engine_batch (a : outb) : batch (list rec) := mkBatch (q_base a) 0 (with_last_delta default_header (q_delta a)) 0 (q_recs a).

(** * A consumer stream, one response at a time *)

(** [send_back_records], [send_processed_response], stream_fetch.rs:350-544: the
    chain afterwards, where the stream goes on, and what is sent (batch and error).
    The client acknowledges [next_filter_offset] (fluvio/src/consumer/mod.rs:536-551)
    and the stream waits for it (stream_fetch.rs:272-290): there is never more than
    one response under way (StreamModel.v has the protocol).  [None]: the stream
    ends with an error. *)
Definition engine_send (iso : isolation) (mx : Z) (r : replica) (is : list inst) (start : Z) : option (list inst * Z * option (batch (list rec) * option smerr)) :=
  match read_partition_slice r start u32_max iso with
  | Fail _ => None
  | Done sl =>
      let records := match sl_bytes sl with Some b => b | None => [] end in
      let next := slice_end iso sl in
      match records with
      | [] => Some (is, start, None)
      | _ =>
          match engine_from is mx (receive records) out0 with
          | None => None
          | Some (is', a, e) =>
              let b := engine_batch a in
              match q_recs a, e with
              | [], None => Some (is', next, None)
              | [], Some _ => Some (is', next, Some (b, e))
              | _, _ => Some (is', get_last_offset b + 1, Some (b, e))
              end
          end
      end
  end.

(** What the application gets: the records, then the error
    (fluvio/src/consumer/mod.rs:327-372, 617-632; [s]: the start of the stream). *)
Inductive given := GRec (c : crec) | GErr (e : smerr).
Definition give (s : Z) (x : batch (list rec) * option smerr) : list given :=
  map GRec (filter (fun c => s <=? cr_offset c) (into_consumer_records (fst x) 0)) ++ match snd x with Some e => [GErr e] | None => [] end.

(** The stream: chain, next offset, what was given so far. *)
Record stream := mkStream { t_chain : list inst; t_pos : Z; t_out : list given }.
Definition serve (iso : isolation) (mx s : Z) (r : replica) (t : stream) : option stream :=
  match engine_send iso mx r (t_chain t) (t_pos t) with
  | None => None
  | Some (is, pos, x) => Some (mkStream is pos (t_out t ++ match x with Some x => give s x | None => [] end))
  end.

(** [ConsumerRecord::timestamp], data.rs:639-645 *)
Definition consumer_time (c : crec) : Z := if cr_ts_base c <=? 0 then -1 else cr_ts_base c + r_ts (cr_rec c).

(** * Before the stream: [look_back], engine.rs:226-257.  The records come without
      their offset and timestamp: [try_from_records], input.rs:172-184, leaves the
      base offset and timestamp 0. *)
Definition look_back_input (l : list rec) : list seen_rec := map (show 0 0) l.

(** * Records written to a topic with a transformation: [transform],
      replica_state.rs:368-382, and [process_record_set], batch.rs:31-38 (the limit
      is [usize::MAX]).  The chain belongs to the leader of the partition and is kept
      from write to write. *)
Inductive transformed :=
  | Stored (is : list inst) (l : list (batch bytes))   (* the chain, and what is written instead *)
  | Refused (is : list inst)                           (* the error is returned, nothing is written *)
  | Broken.                                            (* the call failed *)
Definition transform (is : list inst) (l : list (batch bytes)) : transformed :=
  match engine_from is (2 ^ 64 - 1) l out0 with
  | None => Broken
  | Some (is', _, Some _) => Refused is'
  | Some (is', a, None) => Stored is' (match q_recs a with [] => [] | _ => [to_raw (engine_batch a)] end)
  end.
