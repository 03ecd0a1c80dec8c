(** Model of the key-value table kept in a topic, in which an SPU keeps the
    offsets of managed consumers.
    Source: crates/fluvio-kv-storage/src/log.rs,
            crates/fluvio-spu/src/replication/leader/kv.rs,
            crates/fluvio-spu/src/kv/consumer.rs,
            crates/fluvio-storage/src/iterators.rs

    Simplifications, for the whole file:
    - calls are executed one after the other (the table is behind one lock);
    - a [HashMap] is a list of its entries with distinct keys; the order in
      which it is iterated is an argument ([order]);
    - the storage is the one of StorageModel; that an append may also fail for
      reasons outside that model (a full disk, say) is an argument ([io]);
    - followers are not modelled: the high watermark moves with the write when
      the replica is the only one ([only], [write_record_set] with
      [in_sync_replica == 1]) and is otherwise moved by [SetHw]. *)
From Verif Require Export StorageModel.

(** * Keys, values and entries *)

(** [ConsumerOffsetKey] with [ReplicaKey] = (topic, partition), and
    [ConsumerOffset] = (offset, modified time), kv/consumer.rs:31-43 *)
Definition key := ((bytes * Z) * bytes)%type.
Definition value := (Z * Z)%type.
Definition key_codec : codec key := pair_codec (pair_codec string_codec u32_codec) string_codec.
Definition value_codec : codec value := pair_codec i64_codec u64_codec.
Fixpoint bytes_eqb (a b : bytes) : bool :=
  match a, b with
  | [], [] => true
  | x :: a', y :: b' => (x =? y) && bytes_eqb a' b'
  | _, _ => false
  end.
Definition key_eqb (a b : key) : bool :=
  bytes_eqb (fst (fst a)) (fst (fst b)) && (snd (fst a) =? snd (fst b)) && bytes_eqb (snd a) (snd b).

(** [enum Entry], log.rs:134-143, with the derived encoding (a tag of one byte) *)
Inductive kentry :=
  | Updated (k v : bytes)
  | Deleted (k : bytes)
  | Checkpoint.
Definition buf_codec : codec bytes := vec_codec u8_codec.
Definition entry_enc (e : kentry) : bytes :=
  match e with
  | Updated k v => be_enc 1 0 ++ c_enc buf_codec k ++ c_enc buf_codec v
  | Deleted k => be_enc 1 1 ++ c_enc buf_codec k
  | Checkpoint => be_enc 1 2
  end.
(** What follows the entry is ignored, [decode], log.rs:186-190. *)
Definition entry_dec (bs : bytes) : res kentry :=
  let* (t, r) := c_dec u8_codec bs in
  if t =? 0 then let* (k, r) := c_dec buf_codec r in let* (v, _) := c_dec buf_codec r in Ok (Updated k v)
  else if t =? 1 then let* (k, _) := c_dec buf_codec r in Ok (Deleted k)
  else if t =? 2 then Ok Checkpoint
  else Err InvalidData.
Definition updated (k : key) (v : value) : kentry := Updated (c_enc key_codec k) (c_enc value_codec v).
Definition deleted (k : key) : kentry := Deleted (c_enc key_codec k).

(** * The table: [HashMap] *)
Definition table := list (key * value).
Fixpoint lookup (k : key) (t : table) : option value :=
  match t with [] => None | (k', v) :: t' => if key_eqb k k' then Some v else lookup k t' end.
Definition erase (k : key) (t : table) : table := filter (fun e => negb (key_eqb k (fst e))) t.
Definition insert (k : key) (v : value) (t : table) : table := (k, v) :: erase k t.

(** * The log: [LeaderReplicaLog] *)

(** The batch of [append_batch], leader/kv.rs:45-53: one record for each entry,
    added one by one to [Batch::new()]. *)
Definition record_of (e : kentry) : rec := mkRec 0 0 0 None (entry_enc e) 0.
Definition empty_batch : batch (list rec) := mkBatch 0 0 default_header 0 [].
Definition kv_batch (l : list kentry) : batch (list rec) :=
  fold_left (fun b e => add_records b [record_of e]) l empty_batch.
Definition append (c : config) (now : Z) (only io : bool) (r : replica) (l : list kentry) : replica * bool :=
  if io then match write_recordset c now r [to_raw (kv_batch l)] only with
             | (r1, None) => (r1, true)
             | (r1, Some _) => (r1, false)
             end
  else (r, false).

(** [FileBatchIterator::next] for the first batch of a slice and
    [FileRecordIterator], iterators.rs:58-151, 180-215: the records and their
    offsets.  The payload is not compressed, as [append] writes it.  The batch
    is read from the file, also beyond the end of the slice; the slices here
    reach to the end of the file. *)
Definition first_records (slice : bytes) : res (list (Z * rec)) :=
  match read_from slice 0 with
  | SEnd => Ok []
  | SShort => Err Eof
  | SBatch base _ _ next =>
      let* (l, _) := c_dec memory_codec (zdrop BATCH_FILE_HEADER_SIZE (ztake next slice)) in
      Ok (map (fun r => (base + r_off r, r)) l)
  end.
(** [read_batch], leader/kv.rs:75-97: the batch that holds the offset before
    [last]. *)
Definition read_batch (r : replica) (last : Z) : res (list (Z * rec)) :=
  if last - 1 <? 0 then Ok []
  else match read_partition_slice r (last - 1) (2 ^ 32 - 1) ReadUncommitted with
       | Fail _ => Err InvalidData
       | Done s => match sl_bytes s with None => Ok [] | Some d => first_records d end
       end.
(** One batch, from its end: the entries up to a checkpoint, and whether there
    was one; [poll_next], leader/kv.rs:103-141, and [take_while],
    log.rs:103-113.  An entry that does not decode is kept (as an error). *)
Fixpoint take_batch (l : list (Z * rec)) : list (res kentry) * bool :=
  match l with
  | [] => ([], false)
  | (_, r) :: t =>
      match entry_dec (r_val r) with
      | Ok Checkpoint => ([], true)
      | e => let (x, f) := take_batch t in (e :: x, f)
      end
  end.
(** The entries from [last] back to the last checkpoint, newest first.  A read
    error is handed out once; the finished future is then polled again, which
    panics (leader/kv.rs:114).  Every batch lowers [last], so a fuel of
    [last] + 1 does not run out. *)
Fixpoint rev_entries (fuel : nat) (r : replica) (last : Z) : res (list (res kentry)) :=
  match fuel with
  | O => Err OutOfFuel
  | S f =>
      match read_batch r last with
      | Err _ => Err Panic
      | Ok l =>
          match rev l with
          | [] => Ok []
          | newest =>
              let (x, stop) := take_batch newest in
              if stop then Ok x
              else let* rest := rev_entries f r (match l with [] => last | (o, _) :: _ => o end) in
                   Ok (x ++ rest)
          end
      end
  end.
(** [replay], log.rs:100-131: the entries are applied in the order of the log. *)
Definition apply_entry (t : res table) (e : res kentry) : res table :=
  let* t := t in
  let* e := e in
  match e with
  | Updated k v => let* (k', _) := c_dec key_codec k in let* (v', _) := c_dec value_codec v in Ok (insert k' v' t)
  | Deleted k => let* (k', _) := c_dec key_codec k in Ok (erase k' t)
  | Checkpoint => Err InvalidData
  end.
Definition replay (r : replica) : res table :=
  let* l := rev_entries (S (Z.to_nat (get_hw r))) r (get_hw r) in
  fold_left apply_entry (rev l) (Ok []).

(** * [LogBasedKVStorage], log.rs:26-98 *)
Record kv := mkKv { kv_cache : table; kv_store : replica }.
(** [put] *)
Definition kv_put (c : config) (now : Z) (only io : bool) (s : kv) (k : key) (v : value) : kv * bool :=
  match append c now only io (kv_store s) [updated k v] with
  | (r, true) => (mkKv (insert k v (kv_cache s)) r, true)
  | (r, false) => (mkKv (kv_cache s) r, false)
  end.
(** [delete]: the cache is changed before the entry is appended. *)
Definition kv_delete (c : config) (now : Z) (only io : bool) (s : kv) (k : key) : kv * bool :=
  let (r, ok) := append c now only io (kv_store s) [deleted k] in (mkKv (erase k (kv_cache s)) r, ok).
(** [flush]; [order]: the entries of the cache in the order of the iteration. *)
Definition kv_flush (c : config) (now : Z) (only io : bool) (s : kv) (order : table) : kv * bool :=
  let (r, ok) := append c now only io (kv_store s) (Checkpoint :: map (fun e => updated (fst e) (snd e)) order) in
  (mkKv (kv_cache s) r, ok).

(** * [ConsumerOffsetStorage], kv/consumer.rs:45-49, 91-125 *)
Record offsets := mkOffsets { of_kv : kv; of_changes : Z }.
(** [maybe_flush], with the threshold as an argument ([DEFAULT_FLUSH_THRESHOLD]
    is 100); [order] as in [kv_flush] *)
Definition maybe_flush (th : Z) (c : config) (now : Z) (only io : bool) (s : offsets) (order : table) : offsets * bool :=
  if th <? of_changes s then
    match kv_flush c now only io (of_kv s) order with
    | (s1, true) => (mkOffsets s1 0, true)
    | (s1, false) => (mkOffsets s1 (of_changes s), false)
    end
  else (s, true).
(** [put] and [delete]: [io1] for the entry, [io2] for the flush; [order] is a
    function of the cache after the change. *)
Definition of_put (th : Z) (c : config) (now : Z) (only io1 io2 : bool) (order : table -> table) (s : offsets) (k : key) (v : value) : offsets * bool :=
  let (s1, ok) := kv_put c now only io1 (of_kv s) k v in
  let (s2, fl) := maybe_flush th c now only io2 (mkOffsets s1 (of_changes s + 1)) (order (kv_cache s1)) in
  (s2, fl && ok).
Definition of_delete (th : Z) (c : config) (now : Z) (only io1 io2 : bool) (order : table -> table) (s : offsets) (k : key) : offsets * bool :=
  let (s1, ok) := kv_delete c now only io1 (of_kv s) k in
  let (s2, fl) := maybe_flush th c now only io2 (mkOffsets s1 (of_changes s + 1)) (order (kv_cache s1)) in
  (s2, fl && ok).
(** [get_or_insert] for a replica that is not there yet, kv/consumer.rs:51-68,
    when the SPU has started again and opened the storage [r] *)
Definition of_open (r : replica) : res offsets :=
  let* t := replay r in Ok (mkOffsets (mkKv t r) 0).
