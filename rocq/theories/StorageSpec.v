(** What a partition is supposed to store and return. *)
From Verif Require Import StorageModel RecordSpec.

(** Batches occupying consecutive offsets from [start] up to [end_] (exclusive),
    each with at least one offset. *)
Fixpoint chain (start : Z) (l : list (batch bytes)) (end_ : Z) : Prop :=
  match l with
  | [] => start = end_
  | b :: t => b_base b = start /\ 0 < records_len b /\ chain (start + records_len b) t end_
  end.

(** All bytes of the log files of a replica, oldest segment first. *)
Definition log_bytes (r : replica) : bytes := flat_map g_log (r_prev r) ++ m_log (r_active r).

(** The replica stores exactly the batches [l]. *)
Definition stores (r : replica) (l : list (batch bytes)) : Prop :=
  log_bytes r = flat_map renc l /\ chain (get_log_start r) l (get_leo r).

Definition contains (b : batch bytes) (o : Z) : Prop := b_base b <= o < b_base b + records_len b.

(** The batches of a write with the offsets they get. *)
Fixpoint number (start : Z) (l : list (batch bytes)) : list (batch bytes) :=
  match l with [] => [] | b :: t => with_base b start :: number (start + records_len b) t end.
Fixpoint total (l : list (batch bytes)) : Z :=
  match l with [] => 0 | b :: t => records_len b + total t end.

(** Base offsets of the segments of a replica. *)
Definition seg_bases (r : replica) : list Z := map g_base (r_prev r) ++ [m_base (r_active r)].

(** Sane configurations. *)
Definition config_ok (c : config) : Prop :=
  0 < c_seg_max c < 2 ^ 31 /\ 0 <= c_interval c /\ 0 < c_entries c /\ 0 <= c_retention c.

(** * Histories *)

Inductive op :=
  | Write (now : Z) (l : list (batch bytes)) (upd : bool)
  | SetHw (o : Z)
  | CleanSize
  | CleanTtl (now : Z)
  | Restart (now : Z) (k : ckpt)
  | Crash (now : Z) (b : batch bytes) (n : Z) (k : ckpt).
(** [Write] may succeed or be rejected; [Restart] closes and opens again, with
    whatever the checkpoint file then holds; [Crash]: the process dies while
    appending [b] and is started again. *)
Definition exec (c : config) (r : replica) (a : op) : sres replica :=
  match a with
  | Write now l upd => Done (fst (write_recordset c now r l upd))
  | SetHw o => Done (update_hw r o)
  | CleanSize => Done (enforce_size c r)
  | CleanTtl now => Done (enforce_ttl c now r)
  | Restart now k => load c now (disk_of r k)
  | Crash now b n k => load c now (crash_disk c now r b n k)
  end.

(** No segment spans 2^31 offsets and offsets fit in 63 bits. *)
Definition room (r : replica) (l : list (batch bytes)) : Prop :=
  get_leo r + total l - m_base (r_active r) < 2 ^ 31 /\ get_leo r + total l < 2 ^ 63.

(** Expired segments are older than those that are not: the modification times
    of the files are in order. *)
Definition in_age_order (c : config) (now : Z) (r : replica) : Prop :=
  exists old young, r_prev r = old ++ young
    /\ Forall (fun g => is_expired c now g = true) old
    /\ Forall (fun g => is_expired c now g = false) young.

Definition op_ok (c : config) (r : replica) (a : op) : Prop :=
  match a with
  | Write _ l _ => Forall raw_batch_ok l /\ room r l
  | SetHw _ | CleanSize | Restart _ _ => True
  | CleanTtl now => in_age_order c now r
  | Crash _ b n _ => raw_batch_ok b /\ room r [b] /\ check_limits c [b] = None
  end.

(** Histories all of whose operations are allowed by [P]. *)
Inductive steps (c : config) (P : replica -> op -> Prop) : replica -> replica -> Prop :=
  | steps_none r : steps c P r r
  | steps_more r r1 r2 a : steps c P r r1 -> op_ok c r1 a -> P r1 a -> exec c r1 a = Done r2 -> steps c P r r2.
Definition anything (r : replica) (a : op) : Prop := True.

(** A new partition, and what can become of it. *)
Definition fresh (c : config) (now : Z) : replica := assemble [] (new_segment 0 now) Missing.
Definition reached (c : config) (r : replica) : Prop := exists now, steps c anything (fresh c now) r.

(** The complete batches within the first [n] bytes of a log. *)
Fixpoint complete (l : list (batch bytes)) (n : Z) : list (batch bytes) :=
  match l with
  | [] => []
  | b :: t => if zlen (renc b) <=? n then b :: complete t (n - zlen (renc b)) else []
  end.

(** The files when only the first [n] bytes of the active log survive. *)
Definition cut_disk (r : replica) (n : Z) (k : ckpt) : disk :=
  mkDisk (map closed_files (r_prev r)
          ++ [mkDseg (m_base (r_active r)) (ztake n (m_log (r_active r))) (m_ifile (r_active r)) (m_mtime (r_active r))]) k.

(** The index file cannot fill up before the log file. *)
Definition index_fits (c : config) : Prop := c_seg_max c < c_entries c * c_interval c.

(** The caller never moves the high watermark beyond the log end. *)
Definition hw_in_log (r : replica) (a : op) : Prop :=
  match a with SetHw o => o <= get_leo r | _ => True end.
(** The process keeps running, and batches have no schema id. *)
Definition running (r : replica) (a : op) : Prop :=
  match a with
  | Restart _ _ | Crash _ _ _ _ => False
  | Write _ l _ => Forall (fun b => has_schema (b_hdr b) = false) l
  | _ => True
  end.
(** The bytes in the log files and index entries of all segments. *)
Definition size_of_segments (r : replica) : Z :=
  fold_right (fun g a => zlen (g_log g) + 8 * zlen (g_idx g) + a) 0 (r_prev r)
  + zlen (m_log (r_active r)) + 8 * m_slot (r_active r).

(** A read returns data that begins with [p]. *)
Definition begins_with (x : sres rslice) (p : bytes) : Prop :=
  exists s h e t, x = Done (mkSlice s h e (Some (p ++ t))).
