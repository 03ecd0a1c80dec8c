(** C57, C58: mirroring. *)
From Verif Require Import StorageSpec RecordSpec ReplicationSpec MirrorModel MirrorSpec MirrorClaims.

(** * C57: a mirror is a prefix of its source *)

(** If a message holds a segment, and the tasks of the target do not overlap. *)
Theorem C57_prefix : forall p s, mparams_ok p -> c_seg_max (m_sconf p) <= m_max p -> runs p one_at_a_time (start p) s ->
  exists H n, holds (m_src s) H /\ holds (m_tgt s) (firstn n H).
Proof. exact mirror_prefix. Qed.
Print Assumptions C57_prefix.
(** From home to remote the tasks cannot overlap. *)
Theorem C57_one_task : forall p s, mparams_ok p -> c_seg_max (m_sconf p) <= m_max p -> m_alone p = true -> runs p any_act (start p) s ->
  exists H n, holds (m_src s) H /\ holds (m_tgt s) (firstn n H).
Proof. exact mirror_alone. Qed.
Print Assumptions C57_one_task.
(** Messages of any size: offsets and counts are the same, payloads may lack their end. *)
Theorem C57_any_limit : forall p s, mparams_ok p -> runs p one_at_a_time (start p) s ->
  exists H n copy, holds (m_src s) H /\ Forall2 shortened (firstn n H) copy /\ holds (m_tgt s) copy.
Proof. exact mirror_any_limit. Qed.
Print Assumptions C57_any_limit.
(** They do lack it: a batch that is longer than a message. *)
Theorem C57_cut_refuted : exists p s, mparams_ok p /\ runs p one_at_a_time (start p) s /\ get_leo (m_tgt s) = get_leo (m_src s)
  /\ get_log_start (m_src s) = get_log_start (m_tgt s) /\ zlen (log_bytes (m_tgt s)) < zlen (log_bytes (m_src s)).
Proof. exact mirror_cut_refuted. Qed.
Print Assumptions C57_cut_refuted.
(** Overlapping tasks of the target store the same record twice. *)
Theorem C57_overlap_refuted : exists p s, mparams_ok p /\ c_seg_max (m_sconf p) <= m_max p /\ runs p any_act (start p) s
  /\ get_leo (m_src s) = 1 /\ get_leo (m_tgt s) = 2.
Proof. exact mirror_race_refuted. Qed.
Print Assumptions C57_overlap_refuted.
(** Records that are not committed are copied.  If the leader of the source
    changes and they are lost, source and target differ and nothing notices. *)
Theorem C57_failover_refuted : exists p s r s1 s2, mparams_ok p /\ c_seg_max (m_sconf p) <= m_max p /\ runs p one_at_a_time (start p) s
  /\ failover s r s1 /\ runs p one_at_a_time s1 s2 /\ rests p s2
  /\ get_leo (m_tgt s2) = get_leo (m_src s2) /\ get_log_start (m_tgt s2) = get_log_start (m_src s2) /\ log_bytes (m_tgt s2) <> log_bytes (m_src s2).
Proof. exact mirror_failover_refuted. Qed.
Print Assumptions C57_failover_refuted.
Example C57_ex : mparams_ok copy_p /\ c_seg_max (m_sconf copy_p) <= m_max copy_p /\ runs copy_p one_at_a_time (start copy_p) copied
  /\ get_leo (m_src copied) = 2 /\ get_leo (m_tgt copied) = 1.
Proof. exact copied_ex. Qed.

(** * C58: a mirror catches up *)

(** If nothing is left to do, nothing is missing. *)
Theorem C58_at_rest : forall p s, mparams_ok p -> runs p one_at_a_time (start p) s -> rests p s -> get_leo (m_tgt s) = get_leo (m_src s).
Proof. exact at_rest. Qed.
Print Assumptions C58_at_rest.
(** The exchange comes to rest. *)
Theorem C58_bounded : forall p, mparams_ok p -> c_seg_max (m_sconf p) <= m_max p -> forall s, runs p one_at_a_time (start p) s ->
  exists n, forall k s', steps_n p exchange k s s' -> (k <= n)%nat.
Proof. exact bounded. Qed.
Print Assumptions C58_bounded.
(** A new connection lasts, goes on until it rests, and then the target has
    everything: if it takes all batches, and the source has not removed what it
    lacks, nor what the source believes it lacks. *)
Theorem C58_catches_up : forall p, mparams_ok p -> c_seg_max (m_sconf p) <= m_max p -> takes_all p ->
  forall s0 s, runs p one_at_a_time (start p) s0 -> mstep p s0 Connect = Some s ->
  get_leo (m_src s) < 2 ^ 31 -> get_log_start (m_src s) <= get_leo (m_tgt s) -> Forall (fun k => l_checked k = None) (m_old s) ->
  (m_known s < 0 \/ get_log_start (m_src s) <= m_known s \/ m_last s = get_leo (m_src s)) ->
  (exists n, forall k s', steps_n p exchange k s s' -> (k <= n)%nat)
  /\ forall s', runs p exchange s s' -> m_src s' = m_src s /\ m_conn s' <> None
     /\ (rests p s' \/ exists a s'', exchange s' a /\ allowed p s' a /\ mstep p s' a = Some s'')
     /\ (rests p s' -> exists H, holds (m_src s) H /\ holds (m_tgt s') H).
Proof. exact catches_up. Qed.
Print Assumptions C58_catches_up.
Example C58_ex : mparams_ok copy_p /\ c_seg_max (m_sconf copy_p) <= m_max copy_p /\ takes_all copy_p /\ runs copy_p one_at_a_time (start copy_p) up0
  /\ mstep copy_p up0 Connect = Some up1 /\ get_leo (m_src up1) < 2 ^ 31 /\ get_log_start (m_src up1) <= get_leo (m_tgt up1) /\ Forall (fun k => l_checked k = None) (m_old up1) /\ m_known up1 < 0
  /\ runs copy_p exchange up1 up2 /\ rests copy_p up2 /\ get_leo (m_tgt up1) = 0 /\ get_leo (m_tgt up2) = 2.
Proof. exact up_ex. Qed.
(** Once the source has removed what the target lacks, the target never gets
    another record, whatever happens. *)
Theorem C58_evicted : forall p s s', mparams_ok p -> runs p one_at_a_time (start p) s ->
  get_leo (m_tgt s) < get_log_start (m_src s) -> Forall (fun k => l_syncs k = [] /\ l_checked k = None) (links s) ->
  runs p any_act s s' -> get_leo (m_tgt s') = get_leo (m_tgt s).
Proof. exact evicted_stuck. Qed.
Print Assumptions C58_evicted.
Theorem C58_evicted_refuted : exists p s, mparams_ok p /\ c_seg_max (m_sconf p) <= m_max p /\ takes_all p /\ runs p one_at_a_time (start p) s
  /\ get_leo (m_tgt s) < get_leo (m_src s) /\ forall s', runs p any_act s s' -> get_leo (m_tgt s') = get_leo (m_tgt s).
Proof. exact mirror_evicted_refuted. Qed.
Print Assumptions C58_evicted_refuted.
(** What has been copied and acknowledged is sent again with the next record. *)
Theorem C58_once_refuted : exists p s now l s1 s2 s3 k b, mparams_ok p /\ c_seg_max (m_sconf p) <= m_max p /\ runs p one_at_a_time (start p) s /\ rests p s
  /\ get_leo (m_tgt s) = get_leo (m_src s)
  /\ mstep p s (Produce now l) = Some s1 /\ mstep p s1 Hear = Some s2 /\ mstep p s2 Push = Some s3
  /\ m_conn s3 = Some (false, k) /\ l_syncs k = [b] /\ rset_base_offset (receive b) < get_leo (m_tgt s3).
Proof. exact mirror_again_refuted. Qed.
Print Assumptions C58_once_refuted.
