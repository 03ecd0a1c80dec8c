(** What producers and consumers of a partition are supposed to see of each
    other. *)
From Verif Require Import StorageSpec RecordSpec StreamSpec ProducerSpec EndModel.

(** What the application of a producer pushed and the producer accepted. *)
Definition pushed_by (a : client) : list payload := taken (cl_events a) (returned a).
Definition client_ok (a : client) : Prop := exists T, conf_ok (cl_conf a) /\ 0 <= T < 2 ^ 62 /\ events_ok T (cl_events a).

(** * Runs *)

Definition from (i : nat) (A : list arrival) : list arrival := filter (fun v => Nat.eqb (v_from v) i) A.
(** What else may happen to the storage: the watermark moves, retention, and,
    before the consumer starts, restarts. *)
Definition background (ph : phase) (a : op) : Prop :=
  match a with
  | Write _ _ _ => False
  | _ => match ph with Before r => earlier r a | Open y => live (y_store y) a end
  end.
(** All runs of the producers [P] and of a consumer from offset [s].  [A]: the
    batches handled so far, oldest first. *)
Inductive world (c : config) (p : params) (s : Z) (P : list client) : list arrival -> phase -> Prop :=
  | w_new now : world c p s P [] (Before (fresh c now))
  | w_serve A ph i a b rest iso now isr comp first later r v : world c p s P A ph ->
      nth_error P i = Some a -> on_wire a = map v_batch (from i A) ++ b :: rest -> room (store_of ph) [b] ->
      serve c iso now isr comp first later (store_of ph) i b = (r, v) -> world c p s P (A ++ [v]) (with_log ph r)
  | w_other A ph o r : world c p s P A ph -> op_ok c (store_of ph) o -> background ph o -> exec c (store_of ph) o = Done r ->
      world c p s P A (with_log ph r)
  | w_open A r : world c p s P A (Before r) -> s <= log_limit (p_iso p) r -> world c p s P A (Open (start_stream r s))
  | w_move A y y' : world c p s P A (Open y) -> moves p s y y' -> world c p s P A (Open y').

(** * What is in the log *)

(** The records stored so far, in order, with the producer of each: the record
    with offset [o] is number [o] of the list. *)
Definition log_of (A : list arrival) : list (nat * payload) :=
  flat_map (fun v => if v_stored v then map (pair (v_from v)) (carried (v_batch v)) else []) A.
(** Those of one producer *)
Definition part_of (i : nat) (l : list (nat * payload)) : list payload := map snd (filter (fun x => Nat.eqb (fst x) i) l).

Inductive subsequence {A} : list A -> list A -> Prop :=
  | sub_nil : subsequence [] []
  | sub_keep x l m : subsequence l m -> subsequence (x :: l) (x :: m)
  | sub_skip x l m : subsequence l m -> subsequence l (x :: m).
Definition prefix_of {A} (l m : list A) : Prop := exists t, m = l ++ t.

(** * What the consumer sees *)

(** Offset and record, [None] for an error. *)
Definition consumed (y : sys) : list (option (Z * payload)) :=
  map (option_map (fun x => (fst x, payload_of (snd x)))) (seen y).
(** The records of a log at offsets from [s] up to [q] (exclusive) *)
Fixpoint enumerate {A} (o : Z) (l : list A) : list (Z * A) :=
  match l with [] => [] | x :: t => (o, x) :: enumerate (o + 1) t end.
Definition window (s q : Z) (l : list payload) : list (Z * payload) :=
  filter (fun x => (s <=? fst x) && (fst x <? q)) (enumerate 0 l).

(** Slices of the log are not cut short: the limit of a response is at least the
    size of a segment, or all batches fit. *)
Definition uncut (c : config) (p : params) (A : list arrival) : Prop :=
  c_seg_max c <= p_max p \/ zlen (flat_map renc (map v_batch A)) <= p_max p.

(** * Answers *)

(** Everything a producer sent was handled, and every request was answered once,
    with what the SPU answered for its batches. *)
Definition replies (a : client) : list (batch bytes * (Z * pcode)) :=
  flat_map (fun x => match snd x with [mkAttempt true (Replied rs)] => combine (fst x) rs | _ => [] end) (s_sent (final a)).
Definition heard (i : nat) (a : client) (A : list arrival) : Prop :=
  (forall e l, In e (cl_events a) -> attempts_of e = Some l -> exists rs, l = [mkAttempt true (Replied rs)])
  /\ map (fun v => (v_batch v, (p_base (v_answer v), p_code (v_answer v)))) (from i A) = replies a.
(** Everything a producer sent was handled and stored. *)
Definition all_stored (i : nat) (a : client) (A : list arrival) : Prop :=
  map v_batch (from i A) = on_wire a /\ Forall (fun v => v_stored v = true) (from i A).
