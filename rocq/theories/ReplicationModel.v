(** Model of replication: a leader and its followers for one partition.
    Source: crates/fluvio-spu/src/replication/{leader,follower}/*,
    crates/fluvio-storage/src/lib.rs [OffsetInfo].

    Simplifications:
    - one partition; the set of replicas does not change; no deduplication
      SmartModule ([transform] is the identity) and no mirroring;
    - the values published by [SharableReplicaStorage] on a follower are those
      of its storage (they differ after a write that fails half way, which
      followers never see: [C25_follower_writes]);
    - reading the leader's position and taking the lock of the follower map are
      separate: the position is an argument ([seen]). *)
From Verif Require Export StorageModel.

(** * Positions: [OffsetInfo], fluvio-storage/src/lib.rs:44-111 *)
Record info := mkInfo { i_hw : Z; i_leo : Z }.
Definition default_info : info := mkInfo (-1) (-1).
Definition is_valid (p : info) : bool := negb ((i_hw p =? -1) || (i_leo p =? -1)) && (i_hw p <=? i_leo p).
Definition update_info (p other : info) : info * bool :=
  let hw := if i_hw p <? i_hw other then i_hw other else i_hw p in
  let leo := if i_leo p <? i_leo other then i_leo other else i_leo p in
  (mkInfo hw leo, (i_hw p <? i_hw other) || (i_leo p <? i_leo other)).
Definition newer (p other : info) : bool := (i_leo other <? i_leo p) || (i_hw other <? i_hw p).
Definition is_same (p other : info) : bool := (i_hw p =? i_hw other) && (i_leo p =? i_leo other).
Definition is_committed (p : info) : bool := i_leo p =? i_hw p.

(** [as_offset], fluvio-spu/src/storage/mod.rs:73-78 *)
Definition as_offset (r : replica) : info := mkInfo (get_hw r) (get_leo r).

(** * The committed offset: [compute_hw], replica_state.rs:546-586 *)

(** [BinaryHeap] of reversed offsets: a list; [peek] is its minimum and writing
    through [peek_mut] replaces one occurrence of the minimum. *)
Definition heap_min (l : list Z) : option Z :=
  match l with [] => None | x :: t => Some (fold_left Z.min t x) end.
Fixpoint replace_one (m v : Z) (l : list Z) : list Z :=
  match l with [] => [] | x :: t => if x =? m then v :: t else x :: replace_one m v t end.
Definition heap_offer (l : list Z) (leo : Z) : list Z :=
  match heap_min l with
  | None => l
  | Some m => if m <? leo then replace_one m leo l else l
  end.
Definition list_max (l : list Z) : option Z :=
  match l with [] => None | x :: t => Some (fold_left Z.max t x) end.
(** [min_replica] is a [u16]: [min_replica - 1] wraps for 0 (and panics in debug
    builds). *)
Definition compute_hw (hw : Z) (min_replica : Z) (leos : list Z) : option Z :=
  let min_lrs := Nat.min (Z.to_nat (wrap_u 16 (min_replica - 1))) (length leos) in
  let qualified := filter (fun leo => hw <? leo) leos in
  match min_lrs with
  | O => list_max qualified
  | _ => if (length qualified <? min_lrs)%nat then None
         else heap_min (fold_left heap_offer (skipn min_lrs qualified) (firstn min_lrs qualified))
  end.

(** * The leader *)

(** [ids_to_map] and [new], replica_state.rs:100-144: a map ordered by id *)
Fixpoint insert_id (i : Z) (l : list Z) : list Z :=
  match l with
  | [] => [i]
  | h :: t => match i ?= h with Lt => i :: l | Eq => l | Gt => h :: insert_id i t end
  end.
Definition follower_ids (leader : Z) (replicas : list Z) : list Z :=
  fold_left (fun a i => insert_id i a) (filter (fun i => negb (i =? leader)) replicas) [].
Definition views := list (Z * info).
Definition initial_views (leader : Z) (replicas : list Z) : views :=
  map (fun i => (i, default_info)) (follower_ids leader replicas).
Definition in_sync_replica (replicas : list Z) : Z := wrap_u 16 (zlen replicas).

Fixpoint view (i : Z) (v : views) : option info :=
  match v with [] => None | (j, p) :: t => if i =? j then Some p else view i t end.
Fixpoint set_view (i : Z) (p : info) (v : views) : views :=
  match v with [] => [] | (j, q) :: t => if i =? j then (j, p) :: t else (j, q) :: set_view i p t end.

(** [RecordSet::total_records], data.rs:288-294 *)
Definition total_records {R} (l : list (batch R)) : Z := fold_left (fun a b => a + records_len b) l 0.

(** [write_record_set], replica_state.rs:347-366, without [transform] *)
Definition leader_write (c : config) (now : Z) (isr : Z) (r : replica) (l : list (batch bytes)) : replica * option serr :=
  if total_records l =? 0 then (r, None) else write_recordset c now r l (isr =? 1).

(** [update_states_from_followers], replica_state.rs:186-240 *)
Definition update_states_from_followers (isr : Z) (seen : info) (r : replica) (v : views) (from : Z) (p : info) : replica * views :=
  if newer p seen then (r, v)
  else match view from v with
       | None => (r, v)
       | Some q =>
           match update_info q p with
           | (_, false) => (r, v)
           | (q', true) =>
               let v' := set_view from q' v in
               if is_committed seen then (r, v')
               else match compute_hw (i_hw seen) isr (map (fun x => i_leo (snd x)) v') with
                    | None => (r, v')
                    | Some hw => (update_hw r hw, v')
                    end
           end
       end.

(** [follower_updates], replica_state.rs:242-308: what is sent to a follower,
    the high watermark and the bytes of the records ([FileRecordSet]).  On a
    read error the records are empty (and an error code is set, which followers
    do not look at). *)
Record sync := mkSync { s_hw : Z; s_leo : Z; s_records : bytes }.
Definition follower_updates (seen : info) (r : replica) (v : views) (to max_bytes : Z) : option sync :=
  match view to v with
  | None => None
  | Some q =>
      if is_valid q && negb (is_same q seen) then
        let records :=
          if i_leo q <? i_leo seen then
            match read_partition_slice r (i_leo q) max_bytes ReadUncommitted with
            | Done sl => match sl_bytes sl with Some b => b | None => [] end
            | Fail _ => []
            end
          else [] in
        Some (mkSync (i_hw seen) (i_leo seen) records)
      else None
  end.

(** * A follower *)

(** The record set as the follower decodes it: the slice is sent as a length
    followed by its bytes (fluvio-spu-schema/src/file.rs [FileRecordSet]), and
    read as [RecordSet<RawRecords>] (sync.rs:25). *)
Definition receive (records : bytes) : list (batch bytes) :=
  match rset_dec raw_codec [] (be_enc 4 (zlen records) ++ records) with Ok (l, _) => l | Err _ => [] end.

(** [update_from_leader] and [write_recordsets], follower/state.rs:208-262.  A
    failed write ends the update. *)
Definition follow_hw (r : replica) (leader_hw : Z) : replica :=
  if get_hw r =? leader_hw then r
  else if leader_hw <? get_hw r then r
  else if get_leo r <? leader_hw then r
  else update_hw r leader_hw.
Definition update_from_leader (c : config) (now : Z) (r : replica) (l : list (batch bytes)) (leader_hw : Z) : replica :=
  if 0 <? total_records l then
    if rset_base_offset l =? get_leo r then
      match write_recordset c now r l false with
      | (r1, None) => follow_hw r1 leader_hw
      | (r1, Some _) => r1
      end
    else follow_hw r leader_hw
  else follow_hw r leader_hw.
Definition deliver (c : config) (now : Z) (r : replica) (m : sync) : replica :=
  update_from_leader c now r (receive (s_records m)) (s_hw m).
