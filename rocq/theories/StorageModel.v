(** Model of the storage of one partition replica.
    Source: crates/fluvio-storage/src/{replica,segment,segments,mut_records,
    mut_index,index,records,batch,file,validator,cleaner,checkpoint}.rs

    A log file is its bytes; an index file is the list of its entries
    (relative offset, file position) without trailing zero entries.

    Simplifications, for the whole file:
    - batches carry raw payload bytes ([Batch<RawRecords>], what the SPU stores);
    - the configuration does not change while the replica is open;
    - operations are executed one after the other (the cleaner task is one more
      operation, see [enforce_size], [enforce_ttl]);
    - file system calls succeed; [fd] and paths are not modelled: a slice is the
      bytes it denotes; one directory holds one replica;
    - file positions are not wrapped to 32 bits (files are shorter than 2^32);
    - offsets are not wrapped to 64 bits;
    - logging, flush policy and metrics are left out. *)
From Verif Require Export RecordModel.

(** Errors: fluvio-storage/src/lib.rs [StorageError], [ErrorCode] of reads;
    [Panicked] is a failed assertion or an out-of-bounds access. *)
Inductive serr :=
  | BatchExceededSegment | BatchTooBig | EmptyBatch | ShortCircuited | InvalidBase
  | Other | OffsetEvicted (offset next_available : Z) | IndexFull | BadLog | Panicked.
Inductive sres (A : Type) := Done (a : A) | Fail (e : serr).
Arguments Done {A}.
Arguments Fail {A}.

(** config.rs:68-93, 100-140: segment_max_bytes, max_request_size,
    index_max_interval_bytes, index_max_bytes / 8, max_partition_size,
    retention_seconds *)
Record config := mkConfig {
  c_seg_max : Z; c_req_max : Z; c_interval : Z; c_entries : Z; c_part_max : Z; c_retention : Z;
}.

(** What is written to the log for a batch *)
Definition renc (b : batch bytes) : bytes := batch_enc raw_codec b.
(** [Batch::set_base_offset] *)
Definition with_base (b : batch bytes) (o : Z) : batch bytes :=
  mkBatch o (b_len b) (b_hdr b) (b_schema b) (b_recs b).

(** * Reading batches from a log file *)

(** [FileBatchPos::<FileEmptyRecords>::read_from], batch.rs:61-149, with
    [FileBytesIterator::read_bytes] and [pread], file.rs:46-68, 104-155: end of
    file, not enough bytes ([BatchHeaderError]) or a batch header with the
    position after its content.  [batch_len as usize - 45] wraps. *)
Inductive scanned :=
  | SEnd
  | SShort
  | SBatch (base len : Z) (h : bheader) (next : Z).
Definition read_from (log : bytes) (pos : Z) : scanned :=
  let hd := ztake BATCH_FILE_HEADER_SIZE (zdrop pos log) in
  match hd with
  | [] => SEnd
  | _ =>
      if zlen hd <? BATCH_FILE_HEADER_SIZE then SShort
      else match header_dec hd with
           | Err _ => SShort
           | Ok ((base, len, h), _) =>
               let content_len := as_usize (as_usize len - BATCH_HEADER_SIZE) in
               let content := ztake (wrap_u 32 content_len) (zdrop (pos + BATCH_FILE_HEADER_SIZE) log) in
               if zlen content <? content_len then SShort
               else SBatch base len h (pos + BATCH_FILE_HEADER_SIZE + content_len)
           end
  end.

(** The loop of [find_offset_position], segment.rs:203-224: the position of the
    first batch, from [pos] on, whose last offset is at least [off].  Every
    batch takes at least 57 bytes, so a fuel of the length of the log plus one
    does not run out. *)
Fixpoint scan_for (fuel : nat) (log : bytes) (pos off : Z) : sres (option Z) :=
  match fuel with
  | O => Fail BadLog
  | S f =>
      match read_from log pos with
      | SEnd => Done None
      | SShort => Fail Other
      | SBatch base _ h next =>
          if off <=? base + h_last_delta h then Done (Some pos) else scan_for f log next off
      end
  end.

(** * The sparse index *)

(** [slice::binary_search_by] of the Rust 1.89 standard library on the relative
    offsets, as used by [lookup_entry], index.rs:197-212.  [lookup_entry]
    returns the index found or the one before the insertion point. *)
Definition entry := (Z * Z)%type.
Definition nth_entry (l : list entry) (i : nat) : entry := nth i l (0, 0).
Fixpoint bsearch (fuel : nat) (l : list entry) (delta : Z) (base size : nat) : nat :=
  match fuel with
  | O => base
  | S f =>
      if (1 <? size)%nat then
        let half := Nat.div2 size in
        let mid := (base + half)%nat in
        bsearch f l delta (if delta <? fst (nth_entry l mid) then base else mid) (size - half)
      else base
  end.
Definition lookup_entry (l : list entry) (delta : Z) : option entry :=
  match l with
  | [] => None
  | e0 :: _ =>
      if delta <? fst e0 then None
      else
        let i := bsearch (length l) l delta 0 (length l) in
        let c := fst (nth_entry l i) in
        (* Ok i, or Err of the insertion point, minus one *)
        if c =? delta then Some (nth_entry l i)
        else if c <? delta then Some (nth_entry l i) else Some (nth_entry l (i - 1))
  end.

(** * Segments *)

(** The segment being written: [Segment<MutLogIndex, MutFileRecords>],
    segment.rs:40-60, mut_index.rs:28-39, mut_records.rs:45-56.  [m_mtime] is
    the modification time of the log file. *)
Record mseg := mkMseg {
  m_base : Z; m_end : Z; m_log : bytes;
  m_ifile : list entry; m_slot : Z; m_acc : Z; m_last : Z; m_mtime : Z;
}.
(** A closed segment: [Segment<LogIndex, FileRecordsSlice>] *)
Record rseg := mkRseg { g_base : Z; g_end : Z; g_log : bytes; g_idx : list entry; g_mtime : Z }.

(** [MutableSegment::create], segment.rs:305-322 (new files) *)
Definition new_segment (base now : Z) : mseg := mkMseg base base [] [] 0 0 0 now.

(** [MutLogIndex::find_offset], mut_index.rs:240-253; file position 0 when
    there is no entry, segment.rs:196-205 *)
Definition m_ipos (m : mseg) (delta : Z) : Z :=
  if m_slot m =? 0 then 0
  else match lookup_entry (ztake (m_slot m) (m_ifile m)) delta with Some (_, p) => p | None => 0 end.
(** [LogIndex::find_offset], index.rs:153-156 *)
Definition g_ipos (g : rseg) (delta : Z) : Z :=
  match lookup_entry (g_idx g) delta with Some (_, p) => p | None => 0 end.

(** [find_offset_position], segment.rs:179-227 *)
Definition find_offset_position (base end_ : Z) (log : bytes) (ipos : Z -> Z) (off : Z) : sres (option Z) :=
  if off <? base then Done None
  else if end_ <=? off then Done None
  else scan_for (S (length log)) log (ipos (wrap_u 32 (off - base))) off.

(** [records_slice], segment.rs:116-175, with [as_file_slice] and
    [as_file_slice_from_to] of the two kinds of log file (mut_records.rs:204-217,
    records.rs:151-171): position and length.  [end_pos.pos - pos] is a 32-bit
    subtraction; only the closed segment checks the length. *)
Definition records_slice (closed : bool) (base end_ : Z) (log : bytes) (ipos : Z -> Z)
    (start : Z) (max : option Z) : sres (option (Z * Z)) :=
  match find_offset_position base end_ log ipos start with
  | Fail _ => Fail Other
  | Done None => Done None
  | Done (Some pos) =>
      match max with
      | None => Done (Some (pos, zlen log - pos))
      | Some mx =>
          let eff := Z.min mx end_ in
          if eff =? end_ then Done (Some (pos, zlen log - pos))
          else match find_offset_position base end_ log ipos eff with
               | Fail _ => Fail Other
               | Done None => Fail Other
               | Done (Some epos) =>
                   let len := wrap_u 32 (epos - pos) in
                   if closed && (zlen log <? len) then Fail Other else Done (Some (pos, len))
               end
      end
  end.
Definition m_slice (m : mseg) := records_slice false (m_base m) (m_end m) (m_log m) (m_ipos m).
Definition g_slice (g : rseg) := records_slice true (g_base g) (g_end g) (g_log g) (g_ipos g).

(** [occupied_memory], segment.rs:229-231; index entries are 8 bytes *)
Definition m_occupied (m : mseg) : Z := m_slot m * 8 + zlen (m_log m).
Definition g_occupied (g : rseg) : Z := zlen (g_idx g) * 8 + zlen (g_log g).

(** [MutLogIndex::write_index], mut_index.rs:184-228: [None] is a failed
    assertion. *)
Definition write_index (c : config) (m : mseg) (delta pos size : Z) : option mseg :=
  if (if 0 <? delta then m_last m <? delta else m_last m =? 0) then
    if m_acc m <? c_interval c then
      Some (mkMseg (m_base m) (m_end m) (m_log m) (m_ifile m) (m_slot m) (wrap_u 32 (m_acc m + size)) delta (m_mtime m))
    else if m_slot m <? c_entries c then
      Some (mkMseg (m_base m) (m_end m) (m_log m)
                   (ztake (m_slot m) (m_ifile m) ++ (delta, pos) :: zdrop (m_slot m + 1) (m_ifile m))
                   (m_slot m + 1) 0 delta (m_mtime m))
    else Some (mkMseg (m_base m) (m_end m) (m_log m) (m_ifile m) (m_slot m) (m_acc m) delta (m_mtime m))
  else None.

(** [append_batch], segment.rs:413-455, with [MutFileRecords::write_batch],
    mut_records.rs:132-178.  [now] is the time of the write. *)
Inductive appended := Added | Full | Failed (e : serr).
Definition append_batch (c : config) (now : Z) (m : mseg) (b0 : batch bytes) : mseg * appended :=
  if records_len b0 =? 0 then (m, Failed EmptyBatch)
  else
    let b := with_base b0 (m_end m) in
    if b_base b <? m_base m then (m, Failed InvalidBase)
    else
      let size := batch_size raw_codec b in
      if c_seg_max c <? wrap_u 32 (wrap_u 32 size + zlen (m_log m)) then (m, Full)
      else if zlen (renc b) =? size then
        let m1 := mkMseg (m_base m) (m_end m) (m_log m ++ renc b) (m_ifile m) (m_slot m) (m_acc m) (m_last m) now in
        match write_index c m1 (wrap_u 32 (m_end m - m_base m)) (zlen (m_log m)) (wrap_u 32 size) with
        | Some m2 => (mkMseg (m_base m2) (get_last_offset b + 1) (m_log m2) (m_ifile m2) (m_slot m2) (m_acc m2) (m_last m2) (m_mtime m2), Added)
        | None => (m1, Failed Panicked)
        end
      else (m, Failed Panicked).

(** Closing a segment: [shrink] (mut_index.rs:136-144) and [open_for_read]
    (segment.rs:236-257).  An empty index file is mapped with one zero entry
    ([MemoryMappedFile::open] with a minimal length of 8, index.rs:101-104). *)
Definition closed_index (l : list entry) : list entry := match l with [] => [(0, 0)] | _ => l end.
Definition close_segment (m : mseg) : rseg :=
  mkRseg (m_base m) (m_end m) (m_log m) (closed_index (ztake (m_slot m) (m_ifile m))) (m_mtime m).

(** * The list of closed segments: [SegmentList], segments.rs:152-270, a map
      ordered by base offset *)
Fixpoint add_segment (g : rseg) (l : list rseg) : list rseg :=
  match l with
  | [] => [g]
  | h :: t => match g_base g ?= g_base h with
              | Lt => g :: l
              | Eq => g :: t
              | Gt => h :: add_segment g t
              end
  end.
(** [update_min_max], segments.rs:192-207 *)
Definition seg_max (l : list rseg) : Z := fold_left (fun a g => if a <? g_end g then g_end g else a) l 0.
Definition seg_min (l : list rseg) : Z :=
  fold_left (fun a g => if (a <? 0) || (g_base g <? a) then g_base g else a) l (-1).
(** [BTreeMap::range((Included lo, Included hi)).next_back()] *)
Definition range_last (l : list rseg) (lo hi : Z) : option rseg :=
  match rev (filter (fun g => (lo <=? g_base g) && (g_base g <=? hi)) l) with
  | [] => None
  | g :: _ => Some g
  end.
(** [find_segment], segments.rs:226-243 *)
Definition find_segment (l : list rseg) (off : Z) : option rseg :=
  if off <? seg_min l then None
  else if off =? seg_min l then range_last l off off
  else if seg_max l <=? off then None
  else range_last l (off - seg_max l + seg_min l + 1) off.
(** [SegmentList::occupied_memory], segments.rs:173-178 *)
Definition list_occupied (l : list rseg) : Z := fold_left (fun a g => a + g_occupied g) l 0.
(** [SharedSegments::remove_segments], segments.rs:111-117, 138-150 *)
Definition remove_segments (l : list rseg) (bases : list Z) : list rseg :=
  filter (fun g => negb (existsb (Z.eqb (g_base g)) bases)) l.

(** * The replica: [FileReplica], replica.rs:36-53 *)
Record replica := mkReplica {
  r_prev : list rseg; r_active : mseg; r_hw : Z;
  r_prev_size : Z; r_active_size : Z; r_short : bool;
}.
Definition set_active (r : replica) (m : mseg) : replica :=
  mkReplica (r_prev r) m (r_hw r) (r_prev_size r) (r_active_size r) (r_short r).
Definition set_short (r : replica) : replica :=
  mkReplica (r_prev r) (r_active r) (r_hw r) (r_prev_size r) (r_active_size r) true.

(** replica.rs:78-95, 117-128 *)
Definition get_hw (r : replica) : Z := r_hw r.
Definition get_leo (r : replica) : Z := m_end (r_active r).
Definition get_log_start (r : replica) : Z :=
  if seg_min (r_prev r) <? 0 then m_base (r_active r) else seg_min (r_prev r).
Definition get_partition_size (r : replica) : Z := r_prev_size r + r_active_size r.

(** [find_slice], segments.rs:119-136.  The bytes of the slice. *)
Definition slice_bytes (log : bytes) (s : Z * Z) : bytes := ztake (snd s) (zdrop (fst s) log).
Definition find_slice (l : list rseg) (start : Z) (max : option Z) : sres (option (bytes * (Z * Z))) :=
  match find_segment l start with
  | None => Done None
  | Some g => match g_slice g start max with
              | Fail e => Fail e
              | Done None => Fail Other
              | Done (Some s) => Done (Some (g_log g, s))
              end
  end.

(** [read_records] and [read_partition_slice], replica.rs:97-115, 339-403.
    [max_len] limits the length of the slice. *)
Record rslice := mkSlice { sl_start : Z; sl_hw : Z; sl_leo : Z; sl_bytes : option bytes }.
Definition read_records (r : replica) (start : Z) (max : option Z) (max_len : Z) : sres rslice :=
  let mk := mkSlice (get_log_start r) (get_hw r) (get_leo r) in
  let limited (log : bytes) (s : Z * Z) := Done (mk (Some (slice_bytes log (fst s, Z.min (snd s) max_len)))) in
  if m_base (r_active r) <=? start then
    if start =? get_leo r then Done (mk None)
    else if get_leo r <? start then Fail Other
    else match m_slice (r_active r) start max with
         | Fail e => Fail e
         | Done None => Fail Other
         | Done (Some s) => limited (m_log (r_active r)) s
         end
  else match find_slice (r_prev r) start max with
       | Fail e => Fail e
       | Done None => Fail (OffsetEvicted start (get_log_start r))
       | Done (Some (log, s)) => limited log s
       end.
Inductive isolation := ReadCommitted | ReadUncommitted.
Definition read_partition_slice (r : replica) (start max_len : Z) (iso : isolation) : sres rslice :=
  read_records r start (match iso with ReadCommitted => Some (get_hw r) | ReadUncommitted => None end) max_len.

(** [roll_over], replica.rs:459-474: the size of the closed segment is counted
    ([roll_count]) before the segment is linked ([roll_link]). *)
Definition roll_count (r : replica) : replica :=
  mkReplica (r_prev r) (r_active r) (r_hw r)
            (r_prev_size r + g_occupied (close_segment (r_active r))) (r_active_size r) (r_short r).
Definition roll_link (now : Z) (r : replica) : replica :=
  mkReplica (add_segment (close_segment (r_active r)) (r_prev r)) (new_segment (m_end (r_active r)) now) (r_hw r)
            (r_prev_size r) (r_active_size r) (r_short r).
Definition roll_over (now : Z) (r : replica) : replica := roll_link now (roll_count r).

(** [write_batch], replica.rs:406-452.  A panic leaves [short_circuit] alone. *)
Definition finish_append (r : replica) (m : mseg) : replica :=
  mkReplica (r_prev r) m (r_hw r) (r_prev_size r) (m_occupied m) (r_short r).
Definition fail_append (r : replica) (m : mseg) (e : serr) : replica * option serr :=
  (match e with Panicked => set_active r m | _ => set_short (set_active r m) end, Some e).
Definition write_batch (c : config) (now : Z) (r : replica) (b : batch bytes) : replica * option serr :=
  if r_short r then (r, Some ShortCircuited)
  else match append_batch c now (r_active r) b with
       | (m, Added) => (finish_append r m, None)
       | (m, Failed e) => fail_append r m e
       | (m, Full) =>
           let r1 := roll_over now r in
           match append_batch c now (r_active r1) b with
           | (m, Added) => (finish_append r1 m, None)
           | (m, Failed e) => fail_append r1 m e
           | (m, Full) => fail_append r1 m Other
           end
       end.

(** [update_high_watermark], replica.rs:169-185 (the checkpoint keeps whatever
    it is given) *)
Definition update_hw (r : replica) (o : Z) : replica :=
  mkReplica (r_prev r) (r_active r) o (r_prev_size r) (r_active_size r) (r_short r).

(** [write_recordset], replica.rs:131-164: the limits are checked for all
    batches before anything is written. *)
Fixpoint check_limits (c : config) (l : list (batch bytes)) : option serr :=
  match l with
  | [] => None
  | b :: t => let size := batch_size raw_codec b in
              if c_seg_max c <? size then Some BatchExceededSegment
              else if c_req_max c <? size then Some BatchTooBig
              else check_limits c t
  end.
Fixpoint write_batches (c : config) (now : Z) (r : replica) (l : list (batch bytes)) : replica * option serr :=
  match l with
  | [] => (r, None)
  | b :: t => match write_batch c now r b with
              | (r1, None) => write_batches c now r1 t
              | (r1, Some e) => (r1, Some e)
              end
  end.
Definition write_recordset (c : config) (now : Z) (r : replica) (l : list (batch bytes)) (upd : bool) : replica * option serr :=
  match check_limits c l with
  | Some e => (r, Some e)
  | None => match write_batches c now r l with
            | (r1, None) => (if upd then update_hw r1 (get_leo r1) else r1, None)
            | (r1, Some e) => (r1, Some e)
            end
  end.

(** * Retention: [Cleaner], cleaner.rs:85-132 *)
Definition first_bases (n : Z) (l : list rseg) : list Z := map g_base (ztake n l).
Definition enforce_size (c : config) (r : replica) : replica :=
  let excess := Z.max 0 (get_partition_size r - c_part_max c) in
  if 0 <? excess then
    let count := excess / c_seg_max c + (if 0 <? excess mod c_seg_max c then 1 else 0) in
    let prev := remove_segments (r_prev r) (first_bases count (r_prev r)) in
    mkReplica prev (r_active r) (r_hw r) (list_occupied prev) (r_active_size r) (r_short r)
  else r.
(** [is_expired], records.rs:100-111 *)
Definition is_expired (c : config) (now : Z) (g : rseg) : bool := c_retention c <? now - g_mtime g.
Definition enforce_ttl (c : config) (now : Z) (r : replica) : replica :=
  match filter (is_expired c now) (r_prev r) with
  | [] => r
  | ex => let prev := remove_segments (r_prev r) (map g_base ex) in
          mkReplica prev (r_active r) (r_hw r) (list_occupied prev) (r_active_size r) (r_short r)
  end.

(** * Restart *)

(** What is on disk: the files of each segment (base offset from the file
    name, C11) and the checkpoint file. *)
Record dseg := mkDseg { d_base : Z; d_log : bytes; d_ifile : list entry; d_mtime : Z }.
Inductive ckpt := Missing | Unreadable | Value (o : Z).
Record disk := mkDisk { d_segs : list dseg; d_hw : ckpt }.

(** [LogValidator::validate_core], validator.rs:62-210: last valid offset (-1:
    none), end of the last valid batch, error.  A mismatch with the index is
    only reported. *)
Inductive verr := VOk | VDecoding | VBase | VFuel.
Fixpoint validate (fuel : nat) (base : Z) (log : bytes) (pos last vpos : Z) : Z * Z * verr :=
  match fuel with
  | O => (last, vpos, VFuel)
  | S f =>
      match read_from log pos with
      | SEnd => (last, vpos, VOk)
      | SShort => (last, vpos, VDecoding)
      | SBatch b _ h next =>
          if b <? base then (last, vpos, VBase)
          else validate f base log next (b + h_last_delta h) next
      end
  end.
Definition validate_log (base : Z) (log : bytes) : Z * Z * verr := validate (S (length log)) base log 0 (-1) 0.
(** [leo], validator.rs:233-239 *)
Definition valid_leo (base last : Z) : Z := if last =? -1 then base else last + 1.

(** [open_unknown], segment.rs:261-292 *)
Definition open_unknown (d : dseg) : sres rseg :=
  let '(last, _, e) := validate_log (d_base d) (d_log d) in
  match e with
  | VOk => Done (mkRseg (d_base d) (valid_leo (d_base d) last) (d_log d) (closed_index (d_ifile d)) (d_mtime d))
  | _ => Fail BadLog
  end.

(** [find_first_empty_index], mut_index.rs:161-175: the first slot whose file
    position is zero. *)
Fixpoint first_empty (i : Z) (l : list entry) : Z :=
  match l with [] => i | (_, p) :: t => if p =? 0 then i else first_empty (i + 1) t end.

(** [open_for_write] and [validate_and_repair], segment.rs:324-381,
    mut_index.rs:92-132 *)
Definition open_for_write (c : config) (d : dseg) : sres mseg :=
  let slot := first_empty 0 (d_ifile d) in
  if slot <? c_entries c then
    let '(last, vpos, e) := validate_log (d_base d) (d_log d) in
    match e with
    | VOk => Done (mkMseg (d_base d) (valid_leo (d_base d) last) (d_log d) (d_ifile d) slot 0 0 (d_mtime d))
    | VDecoding => Done (mkMseg (d_base d) (valid_leo (d_base d) last) (ztake vpos (d_log d)) (d_ifile d) slot 0 0 (d_mtime d))
    | _ => Fail BadLog
    end
  else Fail IndexFull.

(** [SharedSegments::from_dir], segments.rs:40-93: the files in the order of
    their base offsets; the last one becomes the active segment. *)
Fixpoint sort_in (d : dseg) (l : list dseg) : list dseg :=
  match l with
  | [] => [d]
  | h :: t => if d_base d <=? d_base h then d :: l else h :: sort_in d t
  end.
Definition sort_segs (l : list dseg) : list dseg := fold_right sort_in [] l.
Fixpoint open_all (l : list dseg) (acc : list rseg) : sres (list rseg) :=
  match l with
  | [] => Done acc
  | d :: t => match open_unknown d with
              | Done g => open_all t (add_segment g acc)
              | Fail e => Fail e
              end
  end.

(** [CheckPoint::create], checkpoint.rs:57-101 *)
Definition ckpt_value (initial : Z) (k : ckpt) : Z :=
  match k with Missing => initial | Unreadable => 0 | Value o => o end.

(** [create_or_load_inner], replica.rs:216-301, with base offset 0: only the
    size of the active segment is set. *)
Definition assemble (prev : list rseg) (m : mseg) (k : ckpt) : replica :=
  let hw := ckpt_value (m_base m) k in
  mkReplica prev m (if m_end m <? hw then m_end m else hw) 0 (m_occupied m) false.
Definition load (c : config) (now : Z) (d : disk) : sres replica :=
  match rev (sort_segs (d_segs d)) with
  | [] => Done (assemble [] (new_segment 0 now) (d_hw d))
  | last :: older =>
      match open_all (rev older) [] with
      | Fail e => Fail e
      | Done prev => match open_for_write c last with
                     | Fail e => Fail e
                     | Done m => Done (assemble prev m (d_hw d))
                     end
      end
  end.

(** The files of a replica *)
Definition closed_files (g : rseg) : dseg := mkDseg (g_base g) (g_log g) (g_idx g) (g_mtime g).
Definition active_files (m : mseg) : dseg := mkDseg (m_base m) (m_log m) (m_ifile m) (m_mtime m).
Definition disk_of (r : replica) (k : ckpt) : disk :=
  mkDisk (map closed_files (r_prev r) ++ [active_files (r_active r)]) k.

(** The files left behind when the process dies while appending [b]: [n] bytes
    of the batch have reached the log file, the index has not been written. *)
Definition died_in (c : config) (now : Z) (m : mseg) (b0 : batch bytes) (n : Z) : mseg :=
  let b := with_base b0 (m_end m) in
  mkMseg (m_base m) (m_end m) (m_log m ++ ztake n (if zlen (renc b) =? batch_size raw_codec b then renc b else []))
         (m_ifile m) (m_slot m) (m_acc m) (m_last m) now.
Definition crash_disk (c : config) (now : Z) (r : replica) (b : batch bytes) (n : Z) (k : ckpt) : disk :=
  match append_batch c now (r_active r) b with
  | (_, Full) => let r1 := roll_over now r in disk_of (set_active r1 (died_in c now (r_active r1) b n)) k
  | (_, Failed _) => disk_of r k
  | (_, Added) => disk_of (set_active r (died_in c now (r_active r) b n)) k
  end.
