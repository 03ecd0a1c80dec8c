(** C67, C68: what a SmartModule is shown before a stream starts. *)
From Verif Require Import StorageSpec StreamModel StreamSpec LookbackModel LookbackSpec LookbackProofs LookbackClaims.

(** C67.  Look-back of the last [n] records, when no segment begins among them:
    exactly the last [n] committed records of the log, in order. *)
Theorem C67_last : forall c r H n, config_ok c -> hist c r H -> Forall numbered H -> get_log_start r <= get_hw r -> 0 <= n < 2 ^ 63 -> at_boundary r H ->
  one_segment r (Z.max (get_log_start r) (get_hw r - n)) ->
  read_lookback r (Last n) = Done (map snd (lastn (Z.to_nat n) (committed r H))).
Proof. exact last_all. Qed.
Print Assumptions C67_last.
Example C67_ex : config_ok lb_c /\ hist lb_c lb_r lb_H /\ Forall numbered lb_H
  /\ get_log_start lb_r <= get_hw lb_r /\ at_boundary lb_r lb_H /\ one_segment lb_r (Z.max (get_log_start lb_r) (get_hw lb_r - 3))
  /\ map (fun x => r_val (snd x)) (lastn 3 (committed lb_r lb_H)) = [[4]; [5]; [6]].
Proof. exact (conj lb_c_ok (conj lb_hist (conj lb_numbered last_demo))). Qed.
(** C67.  In every log: a prefix of them, which is empty only if there are none;
    nothing uncommitted, nothing older. *)
Theorem C67_prefix : forall c r H n, config_ok c -> hist c r H -> Forall numbered H -> get_log_start r <= get_hw r -> 0 <= n < 2 ^ 63 ->
  exists k, read_lookback r (Last n) = Done (map snd (firstn k (filter (fun x => get_hw r - n <=? offset_of x) (committed r H))))
    /\ (filter (fun x => get_hw r - n <=? offset_of x) (committed r H) <> [] -> k <> 0%nat).
Proof. exact last_safe. Qed.
Print Assumptions C67_prefix.
(** C67.  When a segment begins among the last [n] records, the newest records are
    not shown. *)
Theorem C67_segments_refuted : exists c r H n l x, config_ok c /\ hist c r H /\ Forall numbered H /\ get_log_start r <= get_hw r /\ 0 <= n < 2 ^ 63 /\ at_boundary r H
  /\ read_lookback r (Last n) = Done l /\ lastn 1 (committed r H) = [x] /\ ~ In (snd x) l.
Proof. exact segments_refuted. Qed.
Print Assumptions C67_segments_refuted.
(** C67.  When retention has removed records above the watermark, every look-back
    panics. *)
Theorem C67_cleaned_refuted : exists c r H, config_ok c /\ hist c r H /\ Forall numbered H /\ forall n, 0 <= n < 2 ^ 63 -> read_lookback r (Last n) = Fail Panicked.
Proof. exact cleaned_refuted. Qed.
Print Assumptions C67_cleaned_refuted.

(** C68.  Look-back in time.  Timestamps do not go back, every batch has at least
    two records, and the log is complete or reaches back further than the
    requested time: exactly the committed records of that time, in order. *)
Theorem C68_since : forall c r H t, config_ok c -> hist c r H -> Forall numbered H -> get_log_start r <= get_hw r -> at_boundary r H -> in_time r H -> two_each r H -> reaches_back r H t ->
  read_lookback r (Age t 0) = Done (map snd (since t (committed r H))).
Proof. exact age_full. Qed.
Print Assumptions C68_since.
Example C68_ex : config_ok lb_c /\ hist lb_c lb_r lb_H /\ Forall numbered lb_H
  /\ at_boundary lb_r lb_H /\ in_time lb_r lb_H /\ two_each lb_r lb_H /\ reaches_back lb_r lb_H 201
  /\ map (fun x => r_val (snd x)) (since 201 (committed lb_r lb_H)) = [[4]; [5]; [6]].
Proof. exact (conj lb_c_ok (conj lb_hist (conj lb_numbered age_demo))). Qed.
(** C68.  In every log, with or without a limit on the number: nothing else is
    shown, and in order. *)
Theorem C68_nothing_else : forall c r H t n l, config_ok c -> hist c r H -> Forall numbered H -> get_log_start r <= get_hw r -> 0 <= n ->
  read_lookback r (Age t n) = Done l -> exists l', l = map snd l' /\ part_of l' (since t (committed r H)).
Proof. exact age_parts. Qed.
Print Assumptions C68_nothing_else.
(** C68.  If retention has removed something and what is left is all young enough,
    the look-back fails, and with it the stream. *)
Theorem C68_evicted_fails : forall c r H t, config_ok c -> hist c r H -> 0 < get_log_start r <= get_hw r -> at_boundary r H -> two_each r H ->
  Forall (fun b => t <= h_max_ts (b_hdr b)) (kept r H) ->
  read_lookback r (Age t 0) = Fail (OffsetEvicted (get_log_start r - 2) (get_log_start r)).
Proof. exact age_evicted. Qed.
Print Assumptions C68_evicted_fails.
Example C68_evicted_ex : config_ok cl_c /\ hist cl_c (cl_r true) lb_H
  /\ 0 < get_log_start (cl_r true) <= get_hw (cl_r true) /\ at_boundary (cl_r true) lb_H /\ two_each (cl_r true) lb_H
  /\ Forall (fun b => 50 <= h_max_ts (b_hdr b)) (kept (cl_r true) lb_H) /\ map (fun x => r_val (snd x)) (since 50 (committed (cl_r true) lb_H)) = [[5]; [6]].
Proof. exact (conj cl_c_ok (conj (cl_hist true) evicted_demo)). Qed.
(** C68.  Batches of one record: every second one is left out, the newest among
    them. *)
Theorem C68_single_refuted : exists c r H t l, config_ok c /\ hist c r H /\ Forall numbered H /\ get_log_start r <= get_hw r /\ at_boundary r H /\ in_time r H /\ reaches_back r H t
  /\ read_lookback r (Age t 0) = Done l
  /\ map r_val l = [[1]; [3]] /\ map (fun x => r_val (snd x)) (since t (committed r H)) = [[1]; [2]; [3]; [4]].
Proof. exact single_refuted. Qed.
Print Assumptions C68_single_refuted.
(** C68.  With one record in the log, every look-back in time fails. *)
Theorem C68_first_refuted : exists c r H, config_ok c /\ hist c r H /\ Forall numbered H /\ get_log_start r = 0 /\ get_hw r = 1 /\ get_leo r = 1
  /\ forall t, read_lookback r (Age t 0) = Fail (OffsetEvicted (-1) 0).
Proof. exact first_refuted. Qed.
Print Assumptions C68_first_refuted.
