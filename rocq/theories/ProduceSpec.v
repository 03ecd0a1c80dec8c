(** What a produce response is supposed to mean. *)
From Verif Require Import ProduceModel StorageSpec RecordSpec.

(** The records [l] were appended to [r], the first one at offset [base]. *)
Definition appended (r r' : replica) (base : Z) (l : list (batch bytes)) : Prop :=
  base = get_leo r /\ log_bytes r' = log_bytes r ++ flat_map renc (number base l)
  /\ get_leo r' = base + total l /\ get_log_start r' = get_log_start r.

(** A consumer that only sees committed records can read the record at [o],
    which is in batch [b]. *)
Definition visible (r : replica) (b : batch bytes) (o : Z) : Prop :=
  contains b o /\ forall n, zlen (renc b) <= n -> begins_with (read_partition_slice r o n ReadCommitted) (renc b).

(** Codes that mean that the request was refused before anything was written. *)
Definition refused (e : pcode) : Prop :=
  match e with
  | SmartModuleError | TopicNotFound | CompressionError | MessageTooLarge | PartitionShortCircuited => True
  | _ => False
  end.
