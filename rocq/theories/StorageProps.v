(** Properties of the storage of a partition: theorems only. *)
From Verif Require Import StorageModel StorageSpec CheckpointModel CheckpointSpec RecordSpec RecordProofs StorageClaims.

(** [reached c r]: [r] is the state of a partition after any history of writes,
    rejections, watermark updates, rollovers, retention runs, restarts and
    crashes.  The example shows a replica with two closed segments. *)
Example reached_ex : config_ok demo_c /\ reached demo_c demo_r /\ map g_base (r_prev demo_r) = [0; 5] /\ m_base (r_active demo_r) = 10
  /\ get_leo demo_r = 12 /\ get_hw demo_r = 6 /\ r_short demo_r = false.
Proof. exact (conj demo_c_ok (conj demo_r_reached demo_r_shape)). Qed.

(** C12.  Contiguous offsets from the log start to the log end. *)
Theorem C12_contiguous : forall c r, config_ok c -> reached c r -> exists bs, stores r bs.
Proof. exact contiguous. Qed.
Print Assumptions C12_contiguous.
Theorem C12_append : forall c r now l upd r', config_ok c -> reached c r -> Forall raw_batch_ok l -> room r l ->
  write_recordset c now r l upd = (r', None) ->
  log_bytes r' = log_bytes r ++ flat_map renc (number (get_leo r) l)
  /\ get_leo r' = get_leo r + total l /\ get_log_start r' = get_log_start r
  /\ get_hw r' = (if upd then get_leo r' else get_hw r).
Proof. exact append_contiguous. Qed.
Print Assumptions C12_append.
Theorem C12_failed_append : forall c r now l upd r' e, config_ok c -> reached c r -> Forall raw_batch_ok l -> room r l ->
  write_recordset c now r l upd = (r', Some e) ->
  exists n, (n < length l)%nat /\ log_bytes r' = log_bytes r ++ flat_map renc (number (get_leo r) (firstn n l))
  /\ get_leo r' = get_leo r + total (firstn n l) /\ get_log_start r' = get_log_start r /\ get_hw r' = get_hw r.
Proof. exact failed_append_prefix. Qed.
Print Assumptions C12_failed_append.
Theorem C12_append_succeeds : forall c r now l upd, config_ok c -> reached c r -> Forall raw_batch_ok l -> room r l ->
  check_limits c l = None -> r_short r = false ->
  Forall (fun b => 0 < records_len b /\ has_schema (b_hdr b) = false) l ->
  exists r', write_recordset c now r l upd = (r', None) /\ r_short r' = false.
Proof. exact append_succeeds. Qed.
Print Assumptions C12_append_succeeds.
Example C12_ex : Forall raw_batch_ok one /\ room demo_r one /\ check_limits demo_c one = None
  /\ Forall (fun b => 0 < records_len b /\ has_schema (b_hdr b) = false) one
  /\ snd (write_recordset demo_c 2 demo_r one true) = None.
Proof. split; [exact one_ok|]. split; [room_tac|]. split; [reflexivity|]. split; [repeat constructor|vm_compute; reflexivity]. Qed.

(** C13.  A stored batch is read back identically until retention deletes it. *)
Theorem C13_immutable : forall c r r' o, config_ok c -> reached c r -> steps c anything r r' ->
  get_log_start r' <= o < get_leo r ->
  exists b, contains b o /\ forall n, zlen (renc b) <= n ->
    begins_with (read_partition_slice r o n ReadUncommitted) (renc b)
    /\ begins_with (read_partition_slice r' o n ReadUncommitted) (renc b).
Proof. exact immutable. Qed.
Print Assumptions C13_immutable.

(** C14.  Reads within the log, and outside of it. *)
Theorem C14_reads : forall c r, config_ok c -> reached c r ->
  exists bs, stores r bs /\
  (forall o n, get_log_start r <= o < get_leo r ->
     exists pre b post rest, bs = pre ++ (b :: post) ++ rest /\ contains b o
       /\ read_partition_slice r o n ReadUncommitted
          = Done (mkSlice (get_log_start r) (get_hw r) (get_leo r) (Some (ztake n (flat_map renc (b :: post)))))
       /\ (rest = [] \/ exists q, In q (seg_bases r) /\ chain q rest (get_leo r)))
  /\ (forall o n, get_log_start r <= o < get_leo r -> o <= get_hw r ->
     exists pre sel rest p q, bs = pre ++ sel ++ rest
       /\ chain (get_log_start r) pre p /\ chain p sel q /\ chain q rest (get_leo r) /\ q <= get_hw r
       /\ (exists b t, sel ++ rest = b :: t /\ contains b o)
       /\ read_partition_slice r o n ReadCommitted
          = Done (mkSlice (get_log_start r) (get_hw r) (get_leo r) (Some (ztake n (flat_map renc sel))))
       /\ ((sel <> [] /\ (rest = [] \/ In q (seg_bases r))) \/ exists b t, rest = b :: t /\ contains b (get_hw r))).
Proof. exact reads_exact. Qed.
Print Assumptions C14_reads.
Theorem C14_outside : forall c r o n iso, config_ok c -> reached c r ->
  (o < get_log_start r -> read_partition_slice r o n iso = Fail (OffsetEvicted o (get_log_start r)))
  /\ (o = get_leo r -> read_partition_slice r o n iso = Done (mkSlice (get_log_start r) (get_hw r) (get_leo r) None))
  /\ (get_leo r < o -> read_partition_slice r o n iso = Fail Other).
Proof. exact reads_outside. Qed.
Print Assumptions C14_outside.

(** C15.  Committed reads, from a start up to the high watermark or in a closed
    segment. *)
Theorem C15_committed : forall c r o n sl, config_ok c -> reached c r -> o <= get_hw r \/ o < m_base (r_active r) ->
  read_partition_slice r o n ReadCommitted = Done sl ->
  sl_bytes sl = None \/ sl_bytes sl = Some [] \/
  exists bs pre sel rest p q, stores r bs /\ bs = pre ++ sel ++ rest /\ chain (get_log_start r) pre p /\ chain p sel q
    /\ q <= get_hw r /\ sl_bytes sl = Some (ztake n (flat_map renc sel)).
Proof. exact committed_only. Qed.
Print Assumptions C15_committed.
(** The finding: a committed read of the active segment that starts above the
    high watermark returns uncommitted records. *)
Theorem C15_committed_above_refuted : exists c r o n b, config_ok c /\ reached c r /\ contains b o /\ get_hw r <= b_base b
  /\ read_partition_slice r o n ReadCommitted = Done (mkSlice (get_log_start r) (get_hw r) (get_leo r) (Some (renc b))).
Proof. exact committed_above_refuted. Qed.
Print Assumptions C15_committed_above_refuted.

(** C16.  Looking up through the index is the same as scanning from the
    beginning of the segment. *)
Theorem C16_index_is_scan : forall c r o, config_ok c -> reached c r ->
  (find_offset_position (m_base (r_active r)) (m_end (r_active r)) (m_log (r_active r)) (m_ipos (r_active r)) o
   = find_offset_position (m_base (r_active r)) (m_end (r_active r)) (m_log (r_active r)) (fun _ => 0) o)
  /\ forall g, In g (r_prev r) ->
     find_offset_position (g_base g) (g_end g) (g_log g) (g_ipos g) o
     = find_offset_position (g_base g) (g_end g) (g_log g) (fun _ => 0) o.
Proof. exact index_is_scan. Qed.
Print Assumptions C16_index_is_scan.
Example C16_ex : map g_idx (r_prev demo_r) = [[(2, 60)]; [(1, 117)]].
Proof. vm_compute. reflexivity. Qed.
(** The finding: if the log lost more than its index (power loss), entries for
    lost batches stay in the index and later lookups go wrong. *)
Theorem C16_stale_index_refuted : exists c r n k r1 l r2 o, config_ok c /\ reached c r /\ load c 0 (cut_disk r n k) = Done r1
  /\ write_recordset c 0 r1 l false = (r2, None) /\ get_log_start r2 <= o < get_leo r2
  /\ find_offset_position (m_base (r_active r2)) (m_end (r_active r2)) (m_log (r_active r2)) (m_ipos (r_active r2)) o
     <> find_offset_position (m_base (r_active r2)) (m_end (r_active r2)) (m_log (r_active r2)) (fun _ => 0) o
  /\ read_partition_slice r2 o 1000 ReadUncommitted = Fail Other.
Proof. exact stale_index_refuted. Qed.
Print Assumptions C16_stale_index_refuted.

(** C17.  Whatever prefix of the active log survives, the partition is opened
    with exactly the batches completely in it. *)
Theorem C17_recovery : forall c r now n k, config_ok c -> reached c r ->
  exists older act, stores r (older ++ act) /\ m_log (r_active r) = flat_map renc act
  /\ exists r', (stores r' (older ++ complete act n) /\ get_log_start r' = get_log_start r
                 /\ get_hw r' = Z.min (get_leo r') (ckpt_value (m_base (r_active r)) k))
  /\ load c now (cut_disk r n k)
     = if first_empty 0 (m_ifile (r_active r)) <? c_entries c then Done r' else Fail IndexFull.
Proof. exact recovery. Qed.
Print Assumptions C17_recovery.
Theorem C17_recovery_succeeds : forall c r now n k, config_ok c -> index_fits c -> reached c r ->
  exists r', load c now (cut_disk r n k) = Done r'.
Proof. exact recovery_succeeds. Qed.
Print Assumptions C17_recovery_succeeds.
(** Dying in the middle of an append, possibly just after a rollover. *)
Theorem C17_crash : forall c r now b n k, config_ok c -> reached c r -> op_ok c r (Crash now b n k) ->
  exists bs new r', stores r bs /\ (new = [] \/ new = [with_base b (get_leo r)])
    /\ stores r' (bs ++ new) /\ get_log_start r' = get_log_start r
    /\ (exec c r (Crash now b n k) = Done r' \/ exec c r (Crash now b n k) = Fail IndexFull)
    /\ (index_fits c -> exec c r (Crash now b n k) = Done r').
Proof. exact crash_recovery. Qed.
Print Assumptions C17_crash.
Example C17_ex : index_fits demo_c /\ op_ok demo_c demo_r (Crash 3 (demo 2 3) 20 Missing)
  /\ exists r', exec demo_c demo_r (Crash 3 (demo 2 3) 20 Missing) = Done r' /\ log_bytes r' = log_bytes demo_r.
Proof.
  split; [vm_compute; reflexivity|]. split.
  - split; [apply demo_ok; [closed_range|vm_compute; reflexivity]|]. split; [room_tac|reflexivity].
  - eexists. split; [vm_compute; reflexivity|]. vm_compute. reflexivity.
Qed.
(** The finding: once the index is full the partition cannot be opened again. *)
Theorem C17_full_index_refuted : exists c r k, config_ok c /\ reached c r /\ exec c r (Restart 0 k) = Fail IndexFull.
Proof. exact full_index_refuted. Qed.
Print Assumptions C17_full_index_refuted.

(** C18.  The high watermark is at most the log end. *)
Theorem C18_hw_below_end : forall c now r, config_ok c -> steps c hw_in_log (fresh c now) r -> get_hw r <= get_leo r.
Proof. exact hw_below_end. Qed.
Print Assumptions C18_hw_below_end.
Theorem C18_after_load : forall c now d r, load c now d = Done r -> get_hw r <= get_leo r.
Proof. exact load_hw. Qed.
Print Assumptions C18_after_load.
Example C18_ex : get_hw demo_r = 6 /\ hw_in_log demo_r (SetHw 12)
  /\ exists r', load demo_c 5 (cut_disk demo_r 0 (Value 12)) = Done r' /\ get_hw r' = 10.
Proof. split; [reflexivity|]. split; [vm_compute; congruence|]. eexists. split; [vm_compute; reflexivity|]. reflexivity. Qed.
(** The storage itself accepts any watermark. *)
Theorem C18_direct_update_refuted : exists c r, config_ok c /\ reached c r /\ get_leo r < get_hw r.
Proof. exact hw_direct_refuted. Qed.
Print Assumptions C18_direct_update_refuted.

(** C19.  A write with a batch above a limit is rejected and changes nothing. *)
Theorem C19_too_large : forall c now r l upd b, In b l ->
  c_seg_max c < batch_size raw_codec b \/ c_req_max c < batch_size raw_codec b ->
  exists e, (e = BatchExceededSegment \/ e = BatchTooBig) /\ write_recordset c now r l upd = (r, Some e).
Proof. exact too_large_rejected. Qed.
Print Assumptions C19_too_large.
Theorem C19_rejected_unchanged : forall c r now l upd r' e, config_ok c -> reached c r -> Forall raw_batch_ok l -> room r l ->
  write_recordset c now r l upd = (r', Some e) -> e = BatchExceededSegment \/ e = BatchTooBig \/ e = ShortCircuited -> r' = r.
Proof. exact rejected_unchanged. Qed.
Print Assumptions C19_rejected_unchanged.
Example C19_ex : write_recordset demo_c 2 demo_r [demo 2 3; demo 2 200] true = (demo_r, Some BatchExceededSegment).
Proof. vm_compute. reflexivity. Qed.
(** The finding: a batch without records in second place; what precedes it stays
    and the partition refuses every later write. *)
Theorem C19_empty_batch_refuted : exists c r l r', config_ok c /\ reached c r /\ Forall raw_batch_ok l /\ room r l
  /\ write_recordset c 0 r l false = (r', Some EmptyBatch)
  /\ get_leo r < get_leo r' /\ log_bytes r' <> log_bytes r
  /\ write_recordset c 0 r' one false = (r', Some ShortCircuited).
Proof. exact empty_batch_refuted. Qed.
Print Assumptions C19_empty_batch_refuted.
Theorem C19_schema_batch_refuted : exists c r l r', config_ok c /\ reached c r /\ Forall raw_batch_ok l /\ room r l
  /\ check_limits c l = None /\ write_recordset c 0 r l false = (r', Some Panicked).
Proof. exact schema_batch_refuted. Qed.
Print Assumptions C19_schema_batch_refuted.

(** C20.  Retention removes the oldest closed segments only. *)
Theorem C20_oldest : forall c r a r', config_ok c -> reached c r -> op_ok c r a -> (a = CleanSize \/ exists now, a = CleanTtl now) ->
  exec c r a = Done r' ->
  exists old dropped kept, r_prev r = old ++ r_prev r' /\ r_active r' = r_active r
    /\ get_leo r' = get_leo r /\ get_hw r' = get_hw r
    /\ stores r (dropped ++ kept) /\ stores r' kept.
Proof. exact retention_oldest. Qed.
Print Assumptions C20_oldest.
Theorem C20_within_size : forall c r, get_partition_size r <= c_part_max c -> enforce_size c r = r.
Proof. exact within_size_kept. Qed.
Print Assumptions C20_within_size.
Theorem C20_expired_exactly : forall c now r g, config_ok c -> reached c r ->
  (In g (r_prev (enforce_ttl c now r)) <-> In g (r_prev r) /\ is_expired c now g = false).
Proof. exact ttl_exact. Qed.
Print Assumptions C20_expired_exactly.
Example C20_ex : get_log_start demo_r = 0 /\ get_log_start (enforce_size demo_c demo_r) = 5
  /\ get_log_start (enforce_ttl demo_c 12 demo_r) = 10 /\ in_age_order demo_c 12 demo_r.
Proof.
  split; [vm_compute; reflexivity|]. split; [vm_compute; reflexivity|]. split; [vm_compute; reflexivity|].
  exists (r_prev demo_r), []. split; [symmetry; apply app_nil_r|]. split; [|constructor].
  vm_compute. repeat constructor.
Qed.
(** The finding: when modification times are not in order, time-based retention
    leaves a gap; an offset inside the log is reported as evicted, with an
    earlier offset as the next available one. *)
Theorem C20_ttl_gap_refuted : exists c now r o, config_ok c /\ reached c r
  /\ get_log_start (enforce_ttl c now r) <= o < get_leo (enforce_ttl c now r)
  /\ read_partition_slice (enforce_ttl c now r) o 1000 ReadUncommitted = Fail (OffsetEvicted o (get_log_start (enforce_ttl c now r)))
  /\ exists x, read_partition_slice r o 1000 ReadUncommitted = Done x.
Proof. exact ttl_gap_refuted. Qed.
Print Assumptions C20_ttl_gap_refuted.

(** C21.  One segment per offset, and it is the one found. *)
Theorem C21_one_segment : forall c r o, config_ok c -> reached c r -> get_log_start r <= o < get_leo r ->
  (m_base (r_active r) <= o /\ (forall g, In g (r_prev r) -> ~ (g_base g <= o < g_end g)))
  \/ (o < m_base (r_active r) /\ exists g, In g (r_prev r) /\ g_base g <= o < g_end g /\ find_segment (r_prev r) o = Some g
      /\ forall g', In g' (r_prev r) -> g_base g' <= o < g_end g' -> g' = g).
Proof. exact one_segment. Qed.
Print Assumptions C21_one_segment.
Theorem C21_no_segment : forall c r o, config_ok c -> reached c r -> o < get_log_start r \/ m_base (r_active r) <= o ->
  find_segment (r_prev r) o = None.
Proof. exact no_segment. Qed.
Print Assumptions C21_no_segment.

(** C22.  If the writer has run after the last update, the value read back is
    the last one, unless the watermark returned to the value it was opened with
    or to 0. *)
Theorem C22_durable : forall k initial l, let w := wrun (open_writer k initial) (l ++ [Run]) in
  (w_value w <> w_start w /\ w_value w <> 0) \/ Forall (eq (w_start w)) (winit k initial :: values_set l) ->
  read_back w = w_value w.
Proof. exact durable. Qed.
Print Assumptions C22_durable.
Theorem C22_durable_increasing : forall k initial l, 0 <= winit k initial -> nondecreasing (winit k initial) (values_set l) ->
  let w := wrun (open_writer k initial) (l ++ [Run]) in read_back w = w_value w.
Proof. exact durable_increasing. Qed.
Print Assumptions C22_durable_increasing.
Example C22_ex : let l := [SetTo 7; Run; SetTo 8; SetTo 9; Run; SetTo 12] in
  0 <= winit (Value 5) 0 /\ nondecreasing (winit (Value 5) 0) (values_set l) /\ read_back (wrun (open_writer (Value 5) 0) (l ++ [Run])) = 12.
Proof. vm_compute. intuition congruence. Qed.
(** The findings: a watermark that falls back and returns to the value the file
    was opened with is not written; neither is one set right before shutdown. *)
Theorem C22_return_to_start_refuted : exists k initial l, let w := wrun (open_writer k initial) (l ++ [Run]) in
  0 <= winit k initial /\ Forall (fun o => 0 <= o) (values_set l) /\ read_back w <> w_value w.
Proof. exact return_to_start_refuted. Qed.
Print Assumptions C22_return_to_start_refuted.
Theorem C22_shutdown_race_refuted : exists k initial l, let w := wrun (open_writer k initial) l in
  nondecreasing (winit k initial) (values_set l) /\ read_back w <> w_value w.
Proof. exact shutdown_race_refuted. Qed.
Print Assumptions C22_shutdown_race_refuted.

(** C23.  The reported size while the process runs. *)
Theorem C23_size : forall c now r, config_ok c -> steps c running (fresh c now) r -> get_partition_size r = size_of_segments r.
Proof. exact size_exact. Qed.
Print Assumptions C23_size.
Example C23_ex : get_partition_size demo_r = 468 /\ size_of_segments demo_r = 468.
Proof. vm_compute. auto. Qed.
(** The findings: after a restart the closed segments are not counted; a
    retention run in the middle of a rollover loses the segment just closed. *)
Theorem C23_restart_refuted : exists c now r r' k, config_ok c /\ steps c running (fresh c now) r
  /\ exec c r (Restart now k) = Done r' /\ get_partition_size r = size_of_segments r
  /\ get_partition_size r' < size_of_segments r'.
Proof. exact size_restart_refuted. Qed.
Print Assumptions C23_restart_refuted.
Theorem C23_race_refuted : exists c now r b m, config_ok c /\ steps c running (fresh c now) r
  /\ append_batch c now (r_active r) b = (r_active r, Full)
  /\ let r1 := roll_link now (enforce_size c (roll_count r)) in
     append_batch c now (r_active r1) b = (m, Added)
     /\ get_partition_size (finish_append r1 m) < size_of_segments (finish_append r1 m).
Proof. exact size_race_refuted. Qed.
Print Assumptions C23_race_refuted.
