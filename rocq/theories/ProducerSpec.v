(** What a producer is supposed to do with the records it is given. *)
From Coq Require Import Sorting.Sorted.
From Verif Require Import ProducerModel StorageSpec RecordSpec.

(** What the application pushed: everything but the offset and the time. *)
Record payload := mkPayload { n_attr : Z; n_key : option bytes; n_val : bytes; n_headers : Z }.
Definition payload_of (r : rec) : payload := mkPayload (r_attr r) (r_key r) (r_val r) (r_headers r).

(** The records that were accepted, in the order in which they were pushed. *)
Fixpoint taken (l : list pevent) (os : list (option outcome)) : list payload :=
  match l, os with
  | e :: t, o :: os' =>
      match e, o with
      | Push r _ _ _, Some (Accepted _ _) => payload_of r :: taken t os'
      | _, _ => taken t os'
      end
  | _, _ => []
  end.
(** The records of a batch on the wire; the records still queued. *)
Definition carried (b : batch bytes) : list payload :=
  match to_memory b with Ok m => map payload_of (b_recs m) | Err _ => [] end.
Definition carried_all (l : list (list (batch bytes))) : list payload := flat_map (flat_map carried) l.
Definition queued (s : pstate) : list payload := flat_map (fun b => map payload_of (mb_recs b)) (s_queue s).

(** * Domain *)
Definition conf_ok (k : pconf) : Prop := k_request k < 2 ^ 31 - 4 /\ 0 <= k_queue k /\ 0 <= k_linger k.
Definition pushable (r : rec) : Prop :=
  in_s 8 (r_attr r) /\ in_s 32 (r_headers r) /\ payload_ok (r_val r)
  /\ match r_key r with Some x => payload_ok x | None => True end.
Definition readings_of (e : pevent) : list reading :=
  match e with
  | Push _ t1 t2 t3 => [t1; t2; t3]
  | TakeNew t | TakeFull t _ | TakeFlush t _ | Linger t _ => [t]
  | AskFlush | ClearErrors => []
  end.
(** All readings of the wall clock within 24 days of each other. *)
Definition clock_ok (T : Z) (t : reading) : Prop := 0 <= T < 2 ^ 62 /\ T <= wall t < T + 2 ^ 31.
Definition event_ok (T : Z) (e : pevent) : Prop :=
  Forall (clock_ok T) (readings_of e) /\ match e with Push r _ _ _ => pushable r | _ => True end.
Definition events_ok (T : Z) (l : list pevent) : Prop := Forall (event_ok T) l.

(** The wall clock does not run slower than the timers, and is not set back. *)
Definition later_than (a b : reading) : Prop := mono a <= mono b /\ mono b - mono a <= wall b - wall a.
Definition steady (l : list pevent) : Prop := StronglySorted later_than (flat_map readings_of l).

(** Every request is sent once, reaches the SPU and is answered. *)
Definition attempts_of (e : pevent) : option (list attempt) :=
  match e with TakeFull _ l | TakeFlush _ l | Linger _ l => Some l | _ => None end.
Definition smooth (l : list pevent) : Prop :=
  forall e a, In e l -> attempts_of e = Some a -> exists x rs t, a = mkAttempt x (Replied rs) :: t.

(** The most often a request may arrive. *)
Definition most (d : delivery) : nat := match d with AtMostOnce => 1 | AtLeastOnce n => S n end.

(** The producer has nothing to do: no notification, no timer. *)
Definition idle (s : pstate) : Prop := s_new s = 0 /\ s_full s = 0 /\ s_flush s = 0 /\ s_timer s = None.

(** The record pushed by an event of a run, and the receipt for it. *)
Definition receipt (l : list pevent) (os : list (option outcome)) (id off : Z) (x : payload) : Prop :=
  exists n r t1 t2 t3, nth_error l n = Some (Push r t1 t2 t3) /\ nth_error os n = Some (Some (Accepted id off)) /\ x = payload_of r.

(** * The broker *)

(** [rs] is what an SPU answers to a request with the batches [q]: every batch is
    a partition of the request, and is handled in a state of the partition
    ([ts]) in which there is room for it. *)
Definition answered (c : config) (iso : isolation) (pre dedup : list (batch bytes) -> option (list (batch bytes)))
  (q : list (batch bytes)) (rs : list (Z * pcode)) (ts : list turn) : Prop :=
  map t_records ts = map (fun b => [b]) q
  /\ rs = map (fun x => (p_base (snd (fst x)), p_code (snd (fst x)))) (handle_request c iso pre dedup ts)
  /\ Forall (fun t => forall ld, t_leader t = Some ld -> reached c (l_store ld) /\ room (l_store ld) (t_records t)) ts.
(** An unmodified request *)
Definition keep_all (l : list (batch bytes)) : option (list (batch bytes)) := Some l.

(** A reader of [r] finds [x] at offset [o]. *)
Definition finds (r : replica) (o : Z) (x : payload) : Prop :=
  exists b m cr, begins_with (read_partition_slice r o (zlen (renc b)) ReadUncommitted) (renc b)
    /\ contains b o /\ to_memory b = Ok m
    /\ In cr (into_consumer_records m 0) /\ cr_offset cr = o /\ payload_of (cr_rec cr) = x.

(** * Partitions *)
Definition count_of (p : Z) (l : list (res Z)) : Z :=
  zlen (filter (fun x => match x with Ok q => q =? p | Err _ => false end) l).
(** The partitions chosen for the records without key *)
Definition keyless (keys : list (option bytes)) (ps : list (res Z)) : list (res Z) :=
  map snd (filter (fun x => match fst x with None => true | Some _ => false end) (combine keys ps)).
(** There is never a connection to the leader. *)
Definition unconnected (l : list pevent) : Prop := forall e a, In e l -> attempts_of e = Some a -> a = [].
(** The least size of a batch with the record: alone in it, no time passed. *)
Definition smallest (r : rec) : Z := 61 + c_size rec_codec (stamp 0 0 r).
(** Some queued batch has reached the size of a batch, or cannot take more
    because there is one behind it. *)
Definition due (k : pconf) (s : pstate) : Prop :=
  (exists b, In b (s_queue s) /\ k_batch k <= mb_raw_size b) \/ 1 < zlen (s_queue s).
