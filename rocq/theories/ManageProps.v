(** C92: a managed consumer of several partitions, over any number of runs of its
    application. *)
From Verif Require Import StorageSpec RecordSpec StorageModel ConsumerSpec StreamModel ManageModel ManageSpec ManageClaims StreamClaims StreamSpec.

(** Of every partition the records are given in the order of the log, each run (or
    connection) from its start on without a gap; nothing else is given. *)
Theorem C92_in_order c p first retry m l Hs0 g0 Hs g i x H :
  managed c p first retry m l Hs0 g0 Hs g -> resumable first l -> (retry = true -> length l = 1%nat) ->
  nth_error (g_parts g) i = Some x -> nth_error Hs i = Some H ->
  (exists before, given_by i g = before ++ between (n_start (q_conn x)) (n_start (q_conn x) + Z.of_nat (n_taken (q_conn x))) H)
  /\ forall z, In z (given_by i g) -> In z (flat_map records_of H).
Proof. intros A B C. exact (manage_in_order c p first retry m l Hs0 g0 Hs g A B C i x H). Qed.
Print Assumptions C92_in_order.

(** Whatever is stored for a partition, all records up to it, from where the
    consumer was first started, were given or removed by retention: the next run
    cannot skip one.  At every point: the application may crash there. *)
Theorem C92_not_lost c p first retry m l Hs0 g0 Hs g i x H :
  managed c p first retry m l Hs0 g0 Hs g -> resumable first l -> (retry = true -> length l = 1%nat) ->
  nth_error (g_parts g) i = Some x -> nth_error Hs i = Some H ->
  w_stored (q_world x) = stored_first l i
  \/ exists o, w_stored (q_world x) = Some o /\ 0 <= o < log_limit (p_iso p) (part_store x) /\ covered H (part_store x) (given_by i g) (first_start g0 i) o.
Proof. intros A B C. exact (manage_not_lost c p first retry m l Hs0 g0 Hs g A B C i x H). Qed.
Print Assumptions C92_not_lost.

(** When nothing is left to do for a partition, all its records, from where the
    consumer was first started, were given in one of the runs, or removed. *)
Theorem C92_complete c p first retry m l Hs0 g0 Hs g i x H :
  managed c p first retry m l Hs0 g0 Hs g -> resumable first l -> (retry = true -> length l = 1%nat) ->
  nth_error (g_parts g) i = Some x -> nth_error Hs i = Some H -> quiet p (n_sys (q_conn x)) -> n_taken (q_conn x) = length (y_out (n_sys (q_conn x))) ->
  forall b z, In b H -> batch_end b <= log_limit (p_iso p) (part_store x) -> In z (records_of b) -> first_start g0 i <= fst z ->
    In z (given_by i g) \/ fst z < get_log_start (part_store x).
Proof. intros A B C. exact (manage_complete c p first retry m l Hs0 g0 Hs g A B C i x H). Qed.
Print Assumptions C92_complete.
Example C92_runs_nontrivial : managed st_c (plain 160) (FromBeginning 0) false Manual two [st_H; st_H] g_0 [st_H; st_H] g_2
  /\ map fst (given_by 0 g_2) = [0; 1; 2; 2; 3; 4] /\ map fst (given_by 1 g_2) = [2; 3; 4]
  /\ Forall (fun x => quiet (plain 160) (n_sys (q_conn x)) /\ n_taken (q_conn x) = length (y_out (n_sys (q_conn x)))) (g_parts g_2).
Proof. exact demo_2_ok. Qed.
Example C92_retry_nontrivial : exists g, managed st_c (plain 160) (FromBeginning 0) true Manual [(st_r, None)] [st_H] (begun Manual (FromBeginning 0) [(st_r, None)]) [st_H] g
  /\ resumable (FromBeginning 0) [(st_r, None)] /\ map fst (given_by 0 g) = [0; 1; 2; 3; 4] /\ length [(st_r, @None Z)] = 1%nat.
Proof. exact retry_demo. Qed.

(** The commits of a partition are about the records given of it. *)
Theorem C92_events c p first retry m l Hs0 g0 Hs g i x :
  managed c p first retry m l Hs0 g0 Hs g -> resumable first l -> (retry = true -> length l = 1%nat) ->
  nth_error (g_parts g) i = Some x -> offs (w_log (q_world x)) = rev (map fst (given_by i g)).
Proof. intros A B C. exact (manage_log c p first retry m l Hs0 g0 Hs g A B C i x). Qed.
Print Assumptions C92_events.
Theorem C92_commit c p first retry m l Hs0 g0 Hs g :
  managed c p first retry m l Hs0 g0 Hs g -> resumable first l -> (retry = true -> length l = 1%nat) ->
  m <> NoManagement -> g_log (commit_all g) = CommitOk :: g_log g.
Proof. intros A B C. exact (manage_commit c p first retry m l Hs0 g0 Hs g A B C). Qed.
Print Assumptions C92_commit.
(** Without offset management commits and flushes are refused, and nothing is
    stored. *)
Theorem C92_refused c p first retry m l Hs0 g0 Hs g :
  managed c p first retry m l Hs0 g0 Hs g -> resumable first l -> (retry = true -> length l = 1%nat) ->
  m = NoManagement -> g_parts g <> [] -> g_join g = None ->
  g_log (commit_all g) = CommitErr :: g_log g /\ g_log (poll_flush (start_flush g)) = FlushFailed :: g_log g
  /\ forall i x, nth_error (g_parts g) i = Some x -> w_stored (q_world x) = stored_first l i.
Proof. intros A B C. exact (manage_refused c p first retry m l Hs0 g0 Hs g A B C). Qed.
Print Assumptions C92_refused.
Example C92_refused_nontrivial : exists g, managed st_c (plain 160) (FromBeginning 0) false NoManagement two [st_H; st_H] (begun NoManagement (FromBeginning 0) two) [st_H; st_H] g
  /\ resumable (FromBeginning 0) two /\ map fst (given_by 0 g) = [0; 1] /\ g_join g = None /\ g_parts g <> [].
Proof. exact refused_demo. Qed.

(** Manual commits: when a flush has succeeded, what was last committed is stored,
    for every partition. *)
Theorem C92_flush c p first retry m l Hs0 g0 Hs g t i x :
  managed c p first retry m l Hs0 g0 Hs g -> resumable first l -> (retry = true -> length l = 1%nat) ->
  m = Manual -> g_log g = AllFlushed :: t -> ~ In Began t -> nth_error (g_parts g) i = Some x ->
  let lc := last_commit Manual (w_log (q_world x)) in
  lc = -1 /\ w_stored (q_world x) = stored_first l i \/ 0 <= lc < log_limit (p_iso p) (part_store x) /\ w_stored (q_world x) = Some lc.
Proof. intros A B C. exact (manage_flush c p first retry m l Hs0 g0 Hs g A B C t i x). Qed.
Print Assumptions C92_flush.
(** ... and the next run, whenever and however this one ends, starts after it. *)
Theorem C92_resume c p first retry m l Hs0 g0 Hs g t full g' i x x' :
  managed c p first retry m l Hs0 g0 Hs g -> resumable first l -> (retry = true -> length l = 1%nat) ->
  m = Manual -> first = FromBeginning 0 -> g_log g = AllFlushed :: t -> ~ In Began t -> restart first full g = Some g' ->
  nth_error (g_parts g) i = Some x -> nth_error (g_parts g') i = Some x' ->
  let lc := last_commit Manual (w_log (q_world x)) in
  0 <= lc -> n_start (q_conn x') = Z.max (get_log_start (part_store x)) (Z.min (get_hw (part_store x)) (lc + 1)).
Proof. intros A B C. exact (manage_resume c p first retry m l Hs0 g0 Hs g A B C t full g' i x x'). Qed.
Print Assumptions C92_resume.
Example C92_flush_nontrivial : managed st_c (plain 160) (FromBeginning 0) false Manual two [st_H; st_H] g_0 [st_H; st_H] g_1 /\ resumable (FromBeginning 0) two
  /\ (exists t, g_log g_1 = AllFlushed :: t /\ ~ In Began t) /\ map (fun x => w_stored (q_world x)) (g_parts g_1) = [Some 1; Some 2] /\ g_join g_1 = None.
Proof. exact demo_1_ok. Qed.

(** With several partitions and reconnection a record can be skipped, and commits
    then store offsets beyond it: it is lost for good. *)
Theorem C92_retry_refuted : exists c p l Hs0 g0 g x H z, managed c p (FromBeginning 0) true Manual l Hs0 g0 Hs0 g /\ resumable (FromBeginning 0) l
  /\ nth_error (g_parts g) 1 = Some x /\ nth_error Hs0 1 = Some H /\ In z (flat_map records_of H) /\ first_start g0 1 <= fst z /\ get_log_start (part_store x) <= fst z
  /\ ~ In z (given_by 1 g) /\ w_stored (q_world x) = Some 4 /\ n_start (q_conn x) = 5 /\ fst z = 0.
Proof. exact retry_loses. Qed.
Print Assumptions C92_retry_refuted.
(** A distance from the beginning is added to the stored offset in every run. *)
Theorem C92_distance_refuted : exists c p l Hs0 g0 g x H z, managed c p (FromBeginning 1) false Manual l Hs0 g0 Hs0 g
  /\ nth_error (g_parts g) 0 = Some x /\ nth_error Hs0 0 = Some H /\ In z (flat_map records_of H) /\ first_start g0 0 <= fst z /\ get_log_start (part_store x) <= fst z
  /\ ~ In z (given_by 0 g) /\ map fst (given_by 0 g) = [1; 3; 4] /\ fst z = 2 /\ quiet p (n_sys (q_conn x)).
Proof. exact offset_skips. Qed.
Print Assumptions C92_distance_refuted.
(** From the end, with nothing stored: what arrives before the first commit is not
    read by the next run. *)
Theorem C92_end_refuted : exists c p l Hs0 g0 Hs g x H z, managed c p (FromEnd 0) false Manual l Hs0 g0 Hs g
  /\ nth_error (g_parts g) 0 = Some x /\ nth_error Hs 0 = Some H /\ In z (flat_map records_of H) /\ first_start g0 0 <= fst z < log_limit (p_iso p) (part_store x) /\ get_log_start (part_store x) <= fst z
  /\ quiet p (n_sys (q_conn x)) /\ n_taken (q_conn x) = length (y_out (n_sys (q_conn x))) /\ given_by 0 g = [].
Proof. exact end_skips. Qed.
Print Assumptions C92_end_refuted.
(** An absolute offset is where every run starts, in spite of what is stored. *)
Theorem C92_absolute_refuted : exists c p l Hs0 g0 g x, managed c p (Absolute 0) false Manual l Hs0 g0 Hs0 g /\ resumable (Absolute 0) l
  /\ nth_error (g_parts g) 0 = Some x /\ w_stored (q_world x) = Some 4 /\ map fst (given_by 0 g) = [0; 1; 2; 3; 4; 0].
Proof. exact absolute_again. Qed.
Print Assumptions C92_absolute_refuted.
(** A partition whose connection is lost before its first response ends without a
    word; the others go on. *)
Theorem C92_silent_refuted : exists c p l Hs0 g0 g H, managed c p (FromBeginning 0) false Manual l Hs0 g0 Hs0 g
  /\ nth_error Hs0 0 = Some H /\ flat_map records_of H <> [] /\ map fst (given_by 1 g) = [0; 1; 2; 3; 4] /\ g_log g = []
  /\ forall Hs' g', gruns c p (FromBeginning 0) false (Hs0, g) (Hs', g') -> same_run g g' -> given_by 0 g' = [].
Proof. exact ends_silently. Qed.
Print Assumptions C92_silent_refuted.
