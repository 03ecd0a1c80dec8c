(** Model of look-back: the records a SmartModule is shown before a consumer
    stream starts.
    Source: crates/fluvio-spu/src/smartengine/context.rs:122-246,
    crates/fluvio-storage/src/iterators.rs.

    Simplifications:
    - the storage does not change while the records are read (the code takes the
      lock of the storage once per read);
    - uncompressed batches;
    - sums of offsets and of timestamps do not overflow. *)
From Verif Require Export StreamModel.

(** [RecordItem], iterators.rs:20-25 *)
Record past := mkPast { e_off : Z; e_ts : Z; e_rec : rec }.

(** [FileRecordIterator::next], iterators.rs:170-216, on one batch *)
Definition batch_items (b : batch bytes) : sres (list past) :=
  match to_memory b with
  | Err _ => Fail Other
  | Ok m => Done (map (fun r => mkPast (b_base b + r_off r) (h_first_ts (b_hdr b) + r_ts r) r) (b_recs m))
  end.
(** all of them, collected (context.rs:129): the first error is returned *)
Fixpoint items_of (l : list (batch bytes)) : sres (list past) :=
  match l with
  | [] => Done []
  | b :: t => match batch_items b with
              | Fail e => Fail e
              | Done x => match items_of t with Fail e => Fail e | Done y => Done (x ++ y) end
              end
  end.
Definition keep_items (f : past -> bool) (x : sres (list past)) : sres (list past) :=
  match x with Fail e => Fail e | Done l => Done (filter f l) end.

Definition u32_max : Z := 2 ^ 32 - 1.
(** [Ord::clamp] of the standard library: it panics if the bounds are in the
    wrong order. *)
Definition clamp (x lo hi : Z) : sres Z := if hi <? lo then Fail Panicked else Done (if x <? lo then lo else if hi <? x then hi else x).

(** [lookback_last_iterator], context.rs:148-176.  [receive]: the batches of the
    slice, as the iterator over the file returns them (iterators.rs:54-150). *)
Definition lookback_last (r : replica) (last : Z) : sres (list past) :=
  if 2 ^ 63 <=? last then Fail Other
  else match clamp (Z.max (get_hw r - last) 0) (get_log_start r) (get_hw r) with
       | Fail e => Fail e
       | Done offset =>
           match read_partition_slice r offset u32_max ReadCommitted with
           | Fail e => Fail e
           | Done sl => match sl_bytes sl with
                        | None => Done []
                        | Some records => keep_items (fun i => offset <=? e_off i) (items_of (receive records))
                        end
           end
       end.

(** [read_batches_by_age], context.rs:206-246: the loop, newest batch first in
    [result] is last in the code's vector, which is reversed at the end; here a
    batch is put in front.  [fuel]: the loop ends before it is used up
    (C68). *)
Fixpoint batches_by_age (fuel : nat) (r : replica) (min_ts offset : Z) (result : list (batch bytes)) : sres (list (batch bytes)) :=
  match fuel with
  | O => Fail BadLog
  | S fuel =>
      if offset <? 0 then Done result
      else match read_partition_slice r (offset - 1) u32_max ReadCommitted with
           | Fail e => Fail e
           | Done sl =>
               match sl_bytes sl with
               | None => Done result
               | Some records =>
                   match receive records with
                   | [] => Done result
                   | b :: _ => if h_max_ts (b_hdr b) <? min_ts then Done result
                               else batches_by_age fuel r min_ts (b_base b - 1) (b :: result)
                   end
               end
           end
  end.

(** [lookback_age_iterator], context.rs:178-204; [min_ts]: now minus the age *)
Definition lookback_age (r : replica) (min_ts last : Z) : sres (list past) :=
  keep_items (fun i => min_ts <=? e_ts i)
    (if 0 <? last then lookback_last r last
     else match batches_by_age (S (Z.to_nat (get_hw r))) r min_ts (get_hw r - 1) [] with
          | Fail e => Fail e
          | Done l => items_of l
          end).

(** [read_records] and [lookback_iterator], context.rs:122-146: what the look-back
    function of the SmartModule is called with *)
Inductive lookback := Last (last : Z) | Age (min_ts last : Z).
Definition read_lookback (r : replica) (k : lookback) : sres (list rec) :=
  match match k with Last n => lookback_last r n | Age t n => lookback_age r t n end with
  | Fail e => Fail e
  | Done l => Done (map e_rec l)
  end.
