(** Concrete logs for the theorems about look-back. *)
From Verif Require Import StorageSpec RecordSpec RecordProofs StorageProofs ReplicaProofs StorageClaims ReplicationClaims ListFacts.
From Verif Require Import StreamModel StreamSpec StreamProofs StreamClaims LookbackModel LookbackSpec LookbackProofs.

(** A batch whose records were made at [ts], [ts + 1], ... *)
Definition at_time (i : Z) (r : rec) : rec := mkRec (r_attr r) i (r_off r) (r_key r) (r_val r) (r_headers r).
Fixpoint ticking (i : Z) (l : list rec) : list rec := match l with [] => [] | r :: t => at_time i r :: ticking (i + 1) t end.
Definition times (h : bheader) (a b : Z) : bheader :=
  mkHdr (h_epoch h) (h_magic h) (h_crc h) (h_attr h) (h_last_delta h) a b (h_pid h) (h_pepoch h) (h_seq h).
Definition timed (ts : Z) (l : list bytes) : batch bytes :=
  to_raw (mkBatch 0 0 (times (with_last_delta default_header (zlen l - 1)) ts (ts + zlen l - 1)) 0 (ticking 0 (number_from 0 (map text l)))).
Ltac timed_ok := split; [closed_range|split; [closed_range|split; [unfold header_ok; repeat (split; [closed_range|]); closed_range|split; [vm_compute; repeat constructor; discriminate|vm_compute; reflexivity]]]].
Ltac numbered_tac := eexists; split; [vm_compute; reflexivity|vm_compute; repeat split].

(** Three batches of two records in one segment. *)
Definition lb_c : config := mkConfig 1000 1000 10 100 10000 10.
Lemma lb_c_ok : config_ok lb_c. Proof. unfold config_ok, lb_c. cbn. lia. Qed.
Definition lb_l : list (batch bytes) := [timed 100 [[1]; [2]]; timed 200 [[3]; [4]]; timed 300 [[5]; [6]]].
Definition lb_r : replica := put lb_c true (fresh lb_c 0) lb_l.
Definition lb_H : list (batch bytes) := number 0 lb_l.
Lemma lb_hist : hist lb_c lb_r lb_H.
Proof.
  change lb_H with ([] ++ number (get_leo (fresh lb_c 0)) (firstn 3 lb_l)). apply hist_put; [constructor| | | |].
  - unfold lb_l. repeat (constructor; [timed_ok|]). constructor.
  - room_tac.
  - unfold lb_l. repeat (constructor; [honest_tac|]). constructor.
  - vm_compute. repeat split; reflexivity.
Qed.
Lemma lb_numbered : Forall numbered lb_H.
Proof. unfold lb_H, lb_l. cbn [number]. repeat (constructor; [numbered_tac|]). constructor. Qed.

Lemma last_demo : get_log_start lb_r <= get_hw lb_r /\ at_boundary lb_r lb_H /\ one_segment lb_r (Z.max (get_log_start lb_r) (get_hw lb_r - 3))
  /\ map (fun x => r_val (snd x)) (lastn 3 (committed lb_r lb_H)) = [[4]; [5]; [6]].
Proof.
  split; [vm_compute; discriminate|]. split; [right; exists (nth 2 lb_H (demo 0 0)); split; [vm_compute; auto|vm_compute; reflexivity]|]. split; [|vm_compute; reflexivity].
  intros q IN. replace (seg_bases lb_r) with [0] in IN by (vm_compute; reflexivity). destruct IN as [<-|[]]. vm_compute. intros (X & _). discriminate X.
Qed.
Lemma age_demo : at_boundary lb_r lb_H /\ in_time lb_r lb_H /\ two_each lb_r lb_H /\ reaches_back lb_r lb_H 201
  /\ map (fun x => r_val (snd x)) (since 201 (committed lb_r lb_H)) = [[4]; [5]; [6]].
Proof.
  split; [apply last_demo|]. assert (kept lb_r lb_H = lb_H) as K by (vm_compute; reflexivity).
  split; [split|split; [|split; [left; vm_compute; reflexivity|vm_compute; reflexivity]]].
  - rewrite K. unfold lb_H, lb_l. cbn [number].
    repeat (constructor; [intros x IN; vm_compute in IN; repeat destruct IN as [<-|IN]; try contradiction IN; vm_compute; discriminate|]). constructor.
  - rewrite K. unfold lb_H, lb_l. cbn [number ascending]. split; [|split; [|split; [|exact I]]]; intros b IN; repeat destruct IN as [<-|IN]; try contradiction IN; vm_compute; discriminate.
  - unfold two_each. rewrite K. unfold lb_H, lb_l. cbn [number]. repeat (constructor; [vm_compute; discriminate|]). constructor.
Qed.

(** Two segments: only the records of the first are shown. *)
Lemma segments_refuted : exists c r H n l x, config_ok c /\ hist c r H /\ Forall numbered H /\ get_log_start r <= get_hw r /\ 0 <= n < 2 ^ 63 /\ at_boundary r H
  /\ read_lookback r (Last n) = Done l /\ lastn 1 (committed r H) = [x] /\ ~ In (snd x) l.
Proof.
  exists st_c, st_r, st_H, 3, [mkRec 0 0 0 None [3] 0]. eexists. split; [apply st_c_ok|]. split; [apply st_hist|].
  split; [unfold st_H, st_l; cbn [number]; repeat (constructor; [numbered_tac|]); constructor|]. split; [vm_compute; discriminate|]. split; [split; [lia|reflexivity]|].
  split; [right; exists (nth 2 st_H (demo 0 0)); split; [vm_compute; auto|vm_compute; reflexivity]|]. split; [vm_compute; reflexivity|]. split; [vm_compute; reflexivity|].
  vm_compute. intros [X|[]]. discriminate X.
Qed.

(** The cleaner has removed more than was committed. *)
Definition cl_c : config := mkConfig 160 1000 10 100 100 10.
Lemma cl_c_ok : config_ok cl_c. Proof. unfold config_ok, cl_c. cbn. lia. Qed.
Definition cl_l : list (batch bytes) := [timed 100 [[1]; [2]]; timed 200 [[3]; [4]]; timed 300 [[5]; [6]]].
Definition cl_r (upd : bool) : replica := enforce_size cl_c (put cl_c upd (fresh cl_c 0) cl_l).
Lemma cl_hist upd : hist cl_c (cl_r upd) lb_H.
Proof.
  assert (hist cl_c (put cl_c upd (fresh cl_c 0) cl_l) lb_H) as G.
  { change lb_H with ([] ++ number (get_leo (fresh cl_c 0)) (firstn 3 cl_l)). apply hist_put; [constructor| | | |].
    - unfold cl_l. repeat (constructor; [timed_ok|]). constructor.
    - room_tac.
    - unfold cl_l. repeat (constructor; [honest_tac|]). constructor.
    - destruct upd; vm_compute; repeat split; reflexivity. }
  assert (stored_by CleanSize (put cl_c upd (fresh cl_c 0) cl_l) (cl_r upd) []) as S by (split; [destruct upd; vm_compute; reflexivity|reflexivity]).
  pose proof (hist_step cl_c (put cl_c upd (fresh cl_c 0) cl_l) lb_H CleanSize (cl_r upd) [] G I I eq_refl S) as R. rewrite app_nil_r in R. exact R.
Qed.
Lemma cleaned_refuted : exists c r H, config_ok c /\ hist c r H /\ Forall numbered H /\ forall n, 0 <= n < 2 ^ 63 -> read_lookback r (Last n) = Fail Panicked.
Proof.
  exists cl_c, (cl_r false), lb_H. split; [apply cl_c_ok|]. split; [apply cl_hist|]. split; [apply lb_numbered|]. intros n N. unfold read_lookback, lookback_last.
  replace (2 ^ 63 <=? n) with false by lia. unfold clamp. replace (get_hw (cl_r false) <? get_log_start (cl_r false)) with true by (vm_compute; reflexivity). reflexivity.
Qed.

(** Batches of one record. *)
Definition one_l : list (batch bytes) := [timed 100 [[1]]; timed 200 [[2]]; timed 300 [[3]]; timed 400 [[4]]].
Definition one_r : replica := put lb_c true (fresh lb_c 0) one_l.
Lemma one_hist : hist lb_c one_r (number 0 one_l).
Proof.
  change (number 0 one_l) with ([] ++ number (get_leo (fresh lb_c 0)) (firstn 4 one_l)). apply hist_put; [constructor| | | |].
  - unfold one_l. repeat (constructor; [timed_ok|]). constructor.
  - room_tac.
  - unfold one_l. repeat (constructor; [honest_tac|]). constructor.
  - vm_compute. repeat split; reflexivity.
Qed.
Lemma single_refuted : exists c r H t l, config_ok c /\ hist c r H /\ Forall numbered H /\ get_log_start r <= get_hw r /\ at_boundary r H /\ in_time r H /\ reaches_back r H t
  /\ read_lookback r (Age t 0) = Done l
  /\ map r_val l = [[1]; [3]] /\ map (fun x => r_val (snd x)) (since t (committed r H)) = [[1]; [2]; [3]; [4]].
Proof.
  exists lb_c, one_r, (number 0 one_l), 50. eexists. split; [apply lb_c_ok|]. split; [apply one_hist|].
  split; [unfold one_l; cbn [number]; repeat (constructor; [numbered_tac|]); constructor|]. split; [vm_compute; discriminate|].
  assert (kept one_r (number 0 one_l) = number 0 one_l) as K by (vm_compute; reflexivity).
  split; [right; exists (nth 3 (number 0 one_l) (demo 0 0)); split; [rewrite K; vm_compute; auto|vm_compute; reflexivity]|].
  split.
  { split; rewrite K; unfold one_l; cbn [number ascending].
    - repeat (constructor; [intros x IN; vm_compute in IN; repeat destruct IN as [<-|IN]; try contradiction IN; vm_compute; discriminate|]). constructor.
    - split; [|split; [|split; [|split; [|exact I]]]]; intros b IN; repeat destruct IN as [<-|IN]; try contradiction IN; vm_compute; discriminate. }
  split; [left; vm_compute; reflexivity|]. split; [vm_compute; reflexivity|]. split; vm_compute; reflexivity.
Qed.
(** A log of one record. *)
Definition first_r : replica := put lb_c true (fresh lb_c 0) [timed 100 [[1]]].
Lemma first_hist : hist lb_c first_r (number 0 [timed 100 [[1]]]).
Proof.
  change (number 0 [timed 100 [[1]]]) with ([] ++ number (get_leo (fresh lb_c 0)) (firstn 1 [timed 100 [[1]]])). apply hist_put; [constructor| | | |].
  - repeat (constructor; [timed_ok|]). constructor.
  - room_tac.
  - repeat (constructor; [honest_tac|]). constructor.
  - vm_compute. repeat split; reflexivity.
Qed.
Lemma first_refuted : exists c r H, config_ok c /\ hist c r H /\ Forall numbered H /\ get_log_start r = 0 /\ get_hw r = 1 /\ get_leo r = 1
  /\ forall t, read_lookback r (Age t 0) = Fail (OffsetEvicted (-1) 0).
Proof.
  exists lb_c, first_r, (number 0 [timed 100 [[1]]]). split; [apply lb_c_ok|]. split; [apply first_hist|].
  split; [cbn [number]; repeat (constructor; [numbered_tac|]); constructor|]. split; [vm_compute; reflexivity|]. split; [vm_compute; reflexivity|]. split; [vm_compute; reflexivity|].
  intros t. vm_compute. reflexivity.
Qed.
Lemma evicted_demo : 0 < get_log_start (cl_r true) <= get_hw (cl_r true) /\ at_boundary (cl_r true) lb_H /\ two_each (cl_r true) lb_H
  /\ Forall (fun b => 50 <= h_max_ts (b_hdr b)) (kept (cl_r true) lb_H) /\ map (fun x => r_val (snd x)) (since 50 (committed (cl_r true) lb_H)) = [[5]; [6]].
Proof.
  split; [vm_compute; split; [reflexivity|discriminate]|]. assert (kept (cl_r true) lb_H = [nth 2 lb_H (demo 0 0)]) as K by (vm_compute; reflexivity).
  split; [right; exists (nth 2 lb_H (demo 0 0)); split; [rewrite K; left; reflexivity|vm_compute; reflexivity]|].
  split; [unfold two_each; rewrite K; constructor; [vm_compute; discriminate|constructor]|]. split; [rewrite K; constructor; [vm_compute; discriminate|constructor]|vm_compute; reflexivity].
Qed.
