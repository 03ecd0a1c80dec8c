(** What a SmartModule should be shown before a stream starts. *)
From Verif Require Import LookbackModel StorageSpec StreamSpec.

(** The committed batches that are still in the log: those from the log start on
    that end at or below the watermark. *)
Definition kept (r : replica) (H : list (batch bytes)) : list (batch bytes) :=
  filter (fun b => (get_log_start r <=? b_base b) && (batch_end b <=? get_hw r)) H.
(** Their records: offset, timestamp and record. *)
Definition stamp (b : batch bytes) (x : Z * rec) : Z * Z * rec := (fst x, h_first_ts (b_hdr b) + r_ts (snd x), snd x).
Definition stamped (b : batch bytes) : list (Z * Z * rec) := map (stamp b) (records_of b).
Definition committed (r : replica) (H : list (batch bytes)) : list (Z * Z * rec) := flat_map stamped (kept r H).
Definition offset_of (x : Z * Z * rec) : Z := fst (fst x).
Definition time_of (x : Z * Z * rec) : Z := snd (fst x).

(** The last [n] elements. *)
Definition lastn {A} (n : nat) (l : list A) : list A := skipn (length l - n) l.
(** Those not older than [t]. *)
Definition since (t : Z) (l : list (Z * Z * rec)) : list (Z * Z * rec) := filter (fun x => t <=? time_of x) l.
(** [a] is [b] with some elements left out. *)
Inductive part_of {A} : list A -> list A -> Prop :=
  | part_nil : part_of [] []
  | part_keep x a b : part_of a b -> part_of (x :: a) (x :: b)
  | part_skip x a b : part_of a b -> part_of a (x :: b).

(** Records carry their position in the batch, as producers send them. *)
Fixpoint positions (i : Z) (l : list rec) : Prop := match l with [] => True | r :: t => r_off r = i /\ positions (i + 1) t end.
Definition numbered (b : batch bytes) : Prop := exists m, to_memory b = Ok m /\ positions 0 (b_recs m).

(** The watermark lies between two batches (replicas copy whole batches). *)
Definition at_boundary (r : replica) (H : list (batch bytes)) : Prop :=
  get_hw r = get_log_start r \/ exists b, In b (kept r H) /\ batch_end b = get_hw r.
(** No segment begins among the records from [o] to the watermark. *)
Definition one_segment (r : replica) (o : Z) : Prop := forall q, In q (seg_bases r) -> ~ o < q < get_hw r.

(** Timestamps: a header covers its records, and they do not go back from batch
    to batch. *)
Definition covers (b : batch bytes) : Prop := forall x, In x (stamped b) -> time_of x <= h_max_ts (b_hdr b).
Fixpoint ascending (l : list (batch bytes)) : Prop :=
  match l with
  | [] => True
  | b :: t => (forall b', In b' t -> h_max_ts (b_hdr b) <= h_max_ts (b_hdr b')) /\ ascending t
  end.
Definition in_time (r : replica) (H : list (batch bytes)) : Prop := Forall covers (kept r H) /\ ascending (kept r H).
Definition two_each (r : replica) (H : list (batch bytes)) : Prop := Forall (fun b => 2 <= records_len b) (kept r H).
(** The log is complete, or reaches back further than [t]. *)
Definition reaches_back (r : replica) (H : list (batch bytes)) (t : Z) : Prop :=
  get_log_start r = 0 \/ exists b, In b (kept r H) /\ h_max_ts (b_hdr b) < t.
