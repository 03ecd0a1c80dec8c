(** The counters an SPU gives to monitoring.
    Source: crates/fluvio-spu/src (core/metrics.rs, services/public/produce_handler.rs,
    fetch_handler.rs, stream_fetch.rs, replication/leader/replica_state.rs,
    storage/mod.rs, smartengine/context.rs, smartengine/chain.rs) and
    crates/fluvio-smartengine/src/engine (metrics.rs, wasmtime/engine.rs,
    wasmtime/instance.rs).

    Counters are atomic u64, which wrap around.  Requests are served one after the
    other here; the two counters of a request are changed by two atomic additions and
    monitoring may read between them.  Of a partition only its offsets are kept. *)
Require Import List. Import ListNotations.
From Verif Require Import Base.

Definition u64 (x : Z) : Z := x mod 2 ^ 64.

(** core/metrics.rs:72-83 [Record], [increase] *)
Record count := mkCount { c_records : Z; c_bytes : Z }.
Definition incr (c : count) (r b : Z) : count := mkCount (u64 (c_records c + r)) (u64 (c_bytes c + b)).
(** core/metrics.rs:85-113 [Activity], [increase], [increase_by_value] *)
Record activity := mkAct { a_connector : count; a_client : count }.
Definition increase (a : activity) (connector : bool) (r b : Z) : activity :=
  if connector then mkAct (incr (a_connector a) r b) (a_client a) else mkAct (a_connector a) (incr (a_client a) r b).

(** ** Counters of SmartModules *)

(** fluvio-smartengine engine/metrics.rs:10-23: bytes in, records out, errors,
    calls, fuel and milliseconds *)
Record load := mkLoad { d_bytes : Z; d_out : Z; d_err : Z; d_calls : Z; d_fuel : Z; d_ms : Z }.
Definition no_load : load := mkLoad 0 0 0 0 0 0.
(** engine/metrics.rs:110-127 [append] *)
Definition append (a b : load) : load :=
  mkLoad (u64 (d_bytes a + d_bytes b)) (u64 (d_out a + d_out b)) (u64 (d_err a + d_err b))
         (u64 (d_calls a + d_calls b)) (u64 (d_fuel a + d_fuel b)) (u64 (d_ms a + d_ms b)).
(** one call of a module: bytes of its input, whether it reported an error, fuel and time *)
Record call := mkCall { k_bytes : Z; k_failed : bool; k_fuel : Z; k_ms : Z }.
(** wasmtime/instance.rs:59-85 [process], 241-249 [metrics_time_elapsed],
    engine/metrics.rs:76-80 [add_fuel_used]; engine.rs:226-258 [look_back] counts
    the same but no errors.  Records out are not counted. *)
Definition called (m : load) (c : call) : load :=
  mkLoad (u64 (d_bytes m + k_bytes c)) (d_out m) (u64 (d_err m + if k_failed c then 1 else 0))
         (u64 (d_calls m + 1)) (u64 (d_fuel m + k_fuel c)) (u64 (d_ms m + Z.max (k_ms c) 1)).
Definition instance_load (l : list call) : load := fold_left called l no_load.
(** wasmtime/engine.rs:137-169 [metrics_export].  An instance has one name
    (fluvio-spu smartengine/chain.rs:35), so nothing is divided.  The counters of the
    instances are set to zero. *)
Definition share (m : load) : load := mkLoad (d_bytes m) (d_out m) (d_err m) (d_calls m) (d_fuel m) (Z.max (d_ms m) 1).
Definition put (n : Z) (m : load) (t : Z -> option load) : Z -> option load :=
  fun x => if x =? n then Some (match t x with Some e => append e m | None => append no_load m end) else t x.
Definition chain := list (Z * list call).
Definition export (c : chain) : Z -> option load :=
  fold_left (fun t i => put (fst i) (share (instance_load (snd i))) t) c (fun _ => None).
(** core/metrics.rs:49-70 [update_smartmodule_metrics], smartengine/context.rs:90-96 *)
Definition update (t e : Z -> option load) : Z -> option load :=
  fun x => match e x with
           | Some m => match t x with Some o => Some (append o m) | None => Some m end
           | None => t x
           end.

(** ** The SPU *)

Record plog := mkLog { p_start : Z; p_hw : Z; p_leo : Z }.
Record spu := mkSpu { s_log : Z -> plog; s_in : activity; s_out : activity; s_mod : Z -> option load }.
Definition set_log (p : Z) (g : plog) (t : Z -> plog) : Z -> plog := fun x => if x =? p then g else t x.

(** replica_state.rs:347-366 and storage/mod.rs:132-164 [write_record_set]: [n] records
    of [b] bytes remain after the transformation of the topic; the offsets and bytes
    that are answered.  That the high watermark may move is another event. *)
Definition write_record_set (g : plog) (n b : Z) : plog * (Z * Z * Z) :=
  if n =? 0 then (g, (p_hw g, p_leo g, 0))
  else (mkLog (p_start g) (p_hw g) (p_leo g + n), (p_leo g, p_leo g + n, b)).

Definition total (l : list Z) : Z := fold_right Z.add 0 l.

Inductive event :=
| Write (p : Z) (connector : bool) (n b : Z)
| Commit (p h : Z)
| Trim (p o : Z)
| Fetch (p : Z) (connector : bool) (d : Z) (slice : option Z)
| Stream (p : Z) (connector : bool) (d len : Z)
| Process (connector : bool) (c : chain) (sent : list (Z * Z))
| Break (c : chain).

(** [d] is the number of records in the slice of the file that is sent, which the
    code does not know; [sent] has the lengths of key and value of each record *)
Definition meter (s : spu) (e : event) : spu :=
  match e with
  | Write p k n b =>
      (* produce_handler.rs:194-206 *)
      let '(g, (base, leo, bytes)) := write_record_set (s_log s p) n b in
      mkSpu (set_log p g (s_log s)) (increase (s_in s) k (u64 (leo - base)) (u64 bytes)) (s_out s) (s_mod s)
  | Commit p h => mkSpu (set_log p (mkLog (p_start (s_log s p)) h (p_leo (s_log s p))) (s_log s)) (s_in s) (s_out s) (s_mod s)
  | Trim p o => mkSpu (set_log p (mkLog o (p_hw (s_log s p)) (p_leo (s_log s p))) (s_log s)) (s_in s) (s_out s) (s_mod s)
  | Fetch p k d slice =>
      (* fetch_handler.rs:118-139; fluvio-storage replica.rs:345-353: the slice starts at
         the start of the log *)
      match slice with
      | None => s
      | Some len => mkSpu (s_log s) (s_in s) (increase (s_out s) k (u64 (p_hw (s_log s p) - p_start (s_log s p))) len) (s_mod s)
      end
  | Stream p k d len =>
      (* stream_fetch.rs:362-401, 434-470; core/metrics.rs:134-142 *)
      if len =? 0 then s
      else mkSpu (s_log s) (s_in s) (increase (s_out s) k (u64 (p_hw (s_log s p) - p_start (s_log s p))) len) (s_mod s)
  | Process k c sent =>
      (* stream_fetch.rs:403-433, 468-470; core/metrics.rs:144-155 *)
      mkSpu (s_log s) (s_in s)
            (increase (s_out s) k (u64 (Z.of_nat (length sent))) (u64 (total (map (fun r => fst r + snd r) sent))))
            (update (s_mod s) (export c))
  | Break _ =>
      (* stream_fetch.rs:412-419: the engine fails and the stream ends *)
      s
  end.
Definition metered (s : spu) (l : list event) : spu := fold_left meter l s.
