(** What leaders send to followers, and messages with slices that end in the
    middle of a batch. *)
From Verif Require Import StorageProofs ReplicationModel ReplicationSpec ClusterProofs ReplicationClaims StorageClaims StorageModel.
From Verif Require Import Base ListFacts WireSpec WireModel WireProofs RecordSpec RecordModel RecordProofs FrameSpec FrameModel FrameProofs FileModel FileSpec FileProofs FileClaims.

Lemma clean_whole l : clean_cut l (zlen (flat_map (batch_enc raw_codec) l)).
Proof.
  induction l as [|b l IH]; cbn [clean_cut flat_map]; [reflexivity|]. rewrite zlen_app.
  pose proof (zlen_nonneg (flat_map (batch_enc raw_codec) l)).
  replace (zlen (batch_enc raw_codec b) <=? zlen (batch_enc raw_codec b) + zlen (flat_map (batch_enc raw_codec) l)) with true
    by (symmetry; apply Z.leb_le; lia).
  replace (zlen (batch_enc raw_codec b) + zlen (flat_map (batch_enc raw_codec) l) - zlen (batch_enc raw_codec b))
    with (zlen (flat_map (batch_enc raw_codec) l)) by lia. exact IH.
Qed.

Section Leader.
  Context (p : params) (PO : params_ok p).

  Lemma net_cut full s i m : (full = true -> c_seg_max (p_conf p) <= p_max_bytes p) -> reachable p s -> In (ToFollower i m) (k_net s) ->
    exists l k, cut_at (s_records m) l k /\ (full = true -> clean_cut l k).
  Proof.
    intros SM R NET. destruct (runs_cinv p PO full SM _ _ R) as (H & CI).
    destruct (ci_net _ _ _ _ CI _ NET) as (_ & _ & pre & sel & rest & n & EH & ER & SZ & N0 & FU).
    pose proof (ci_good _ _ _ _ CI) as G. rewrite EH in G. apply Forall_app in G as (_ & G). apply Forall_app in G as (G & _).
    change (encs sel) with (flat_map (batch_enc raw_codec) sel) in *.
    pose proof (zlen_nonneg (flat_map (batch_enc raw_codec) sel)) as Z0.
    exists sel, (Z.min n (zlen (flat_map (batch_enc raw_codec) sel))). split.
    - split; [eapply Forall_impl; [|exact G]; intros b (B & _); exact B|]. split; [lia|]. split; [lia|].
      rewrite ER. destruct (Z.min_spec n (zlen (flat_map (batch_enc raw_codec) sel))) as [[_ ->]|[L ->]]; [reflexivity|].
      rewrite !ztake_all by lia. reflexivity.
    - intros F. rewrite Z.min_r by (apply FU; exact F). apply clean_whole.
  Qed.
  Lemma leader_cut s i m : reachable p s -> In (ToFollower i m) (k_net s) -> exists l k, cut_at (s_records m) l k.
  Proof. intros R N. destruct (net_cut false s i m ltac:(discriminate) R N) as (l & k & C & _). eauto. Qed.
  Lemma leader_clean s i m : c_seg_max (p_conf p) <= p_max_bytes p -> reachable p s -> In (ToFollower i m) (k_net s) ->
    exists l k, cut_at (s_records m) l k /\ clean_cut l k.
  Proof. intros SM R N. destruct (net_cut true s i m (fun _ => SM) R N) as (l & k & C & D). eauto. Qed.
End Leader.

(** * A limit of 86 bytes *)

Definition two : list (batch bytes) := [demo 1 10; demo 1 55].
Lemma two_ok : Forall raw_batch_ok two.
Proof. repeat (constructor; [apply demo_ok; [closed_range|vm_compute; reflexivity]|]). constructor. Qed.
Definition cut_s : cluster := round1 86 two.
Definition cut_m : sync := sent (cut_p 86) 2 cut_s.
Lemma cut_reachable : reachable (cut_p 86) cut_s.
Proof.
  unfold cut_s, round1; cbv zeta; apply reach_send; [apply cut_p_follower|le_tac|eexists; vm_compute; reflexivity|];
    apply reach_receive; [left; reflexivity|le_tac|]; apply reach_report; [apply cut_p_follower|];
    apply reach_produce; [exact two_ok|repeat constructor|room_tac|apply runs_none].
Qed.
Lemma cut_in_net : In (ToFollower 2 cut_m) (k_net cut_s).
Proof. left. vm_compute. reflexivity. Qed.

Definition tags : Z -> codec Z := fun _ => i16_codec.
Lemma tags_faithful : faithful tags (in_s 16).
Proof. intros v _. apply s2_lawful. Qed.

Definition cut_st : files := fun _ => s_records cut_m.
Definition cut_slice : fslice := mkFs 0 0 86.
Definition cut_part : ppart (E := Z) fslice := mkPpart 0 0 (s_hw cut_m) (s_leo cut_m) cut_slice.
Definition cut_h : rheader := mkRheader 0 1 7 [115].
Definition cut_reps : list (bytes * ppart (E := Z) fslice) := [([97], cut_part); ([98], cut_part)].
Lemma check_bytes l : forallb (fun b => (0 <=? b) && (b <? 256)) l = true -> is_bytes l.
Proof.
  intros H. apply Forall_forall. intros b Hb. rewrite forallb_forall in H. specialize (H b Hb). unfold is_byte.
  apply andb_true_iff in H. lia.
Qed.
Lemma cut_held : held cut_st cut_slice.
Proof.
  unfold held, cut_st, cut_slice. cbn [f_pos f_len f_fd].
  split; [lia|]. split; [lia|]. split; [vm_compute; congruence|]. apply check_bytes. vm_compute. reflexivity.
Qed.
Lemma letter_ok b : b = 97 \/ b = 98 \/ b = 115 -> str_ok [b].
Proof. intros [->|[->| ->]]; split; vm_compute; reflexivity. Qed.
Lemma cut_part_ok : ppart_ok (in_s 16) (held cut_st) cut_part.
Proof.
  unfold ppart_ok, cut_part. cbn [pp_index pp_error pp_hw pp_leo pp_records].
  split; [closed_range|]. split; [closed_range|]. split; [vm_compute; intuition congruence|]. split; [vm_compute; intuition congruence|]. exact cut_held.
Qed.
Lemma cut_h_ok : rheader_ok cut_h.
Proof.
  unfold rheader_ok, cut_h. cbn [rh_key rh_version rh_corr rh_client].
  split; [closed_range|]. split; [lia|]. split; [closed_range|]. apply letter_ok. lia.
Qed.
Definition cut_sync : bytes := skipn 4 (send_sync tags 0 cut_st cut_h (sync_of cut_reps)).
Lemma cut_sync_refuted : exists p s i m st h reps req,
  params_ok p /\ reachable p s /\ In (ToFollower i m) (k_net s)
  /\ rheader_ok h /\ length reps = 2%nat
  /\ Forall (fun r => str_ok (fst r) /\ ppart_ok (in_s 16) (held st) (snd r)
                      /\ pp_error (snd r) = 0 /\ pp_hw (snd r) = s_hw m /\ pp_leo (snd r) = s_leo m
                      /\ contents st (pp_records (snd r)) = s_records m) reps
  /\ send_sync tags 0 st h (sync_of reps) = framed req
  /\ exists e, request_dec (fun v => sync_codec tags 0 v [] set_codec) req = Err e.
Proof.
  exists (cut_p 86), cut_s, 2, cut_m, cut_st, cut_h, cut_reps, cut_sync.
  split; [apply cut_p_ok; lia|]. split; [exact cut_reachable|]. split; [exact cut_in_net|]. split; [exact cut_h_ok|]. split; [reflexivity|].
  split.
  { unfold cut_reps. constructor; [|constructor; [|constructor]]; cbn [fst snd];
      (split; [apply letter_ok; lia|]; split; [exact cut_part_ok|]; split; [reflexivity|]; split; [reflexivity|]; split; [reflexivity|]; vm_compute; reflexivity). }
  split; [vm_compute; reflexivity|]. exists InvalidData. vm_compute. reflexivity.
Qed.

Definition cut_fpart (n : Z) : fpart (E := Z) fslice := mkFpart n 0 2 2 0 None cut_slice.
Definition cut_fetch : fetch_resp (E := Z) fslice := mkFetch 0 0 0 [mkFtopic [97] [cut_fpart 0; cut_fpart 1]].
Definition cut_resp : bytes := skipn 4 (send_fetch tags 0 cut_st 10 7 cut_fetch).
Lemma cut_fpart_ok (P : fslice -> Prop) n : in_u 32 n -> P cut_slice -> fpart_ok (in_s 16) P (cut_fpart n).
Proof.
  intros H HP. unfold fpart_ok, cut_fpart. cbn [fp_index fp_error fp_hw fp_next fp_start fp_aborted fp_records].
  split; [exact H|]. split; [closed_range|]. split; [closed_range|]. split; [closed_range|]. split; [closed_range|]. split; [exact I|exact HP].
Qed.
Lemma cut_fetch_refuted : exists st v corr x t p1 p2 resp q1 q2 more,
  fr_topics x = [mkFtopic t [p1; p2]]
  /\ fetch_ok (in_s 16) (fun s => held st s /\ exists l k, cut_at (contents st s) l k) x
  /\ fp_error p2 = 0 /\ decoded (contents st (fp_records p2)) <> []
  /\ send_fetch tags 0 st v corr x = framed resp
  /\ c_dec (resp_codec (fetch_codec tags 0 v [] set_codec)) resp
     = Ok ((corr, mkFetch (fr_throttle x) (fr_error x) (fr_session x) [mkFtopic t [q1; q2]]), more)
  /\ fp_index q2 <> fp_index p2 /\ fp_records q2 = [] /\ more <> [].
Proof.
  destruct (c_dec (resp_codec (fetch_codec tags 0 10 [] set_codec)) cut_resp) as [[[c y] more]|e] eqn:E; [|vm_compute in E; discriminate].
  vm_compute in E. injection E as <- <- <-.
  exists cut_st, 10, 7, cut_fetch, [97], (cut_fpart 0), (cut_fpart 1), cut_resp. do 3 eexists.
  split; [reflexivity|]. split.
  { assert (held cut_st cut_slice /\ exists l k, cut_at (contents cut_st cut_slice) l k) as HC.
    { split; [exact cut_held|]. destruct (leader_cut (cut_p 86) (cut_p_ok 86 ltac:(lia)) cut_s 2 cut_m cut_reachable cut_in_net) as (l & k & C).
      exists l, k. replace (contents cut_st cut_slice) with (s_records cut_m) by (vm_compute; reflexivity). exact C. }
    unfold fetch_ok, cut_fetch. cbn [fr_throttle fr_error fr_session fr_topics].
    split; [closed_range|]. split; [closed_range|]. split; [closed_range|]. split; [|vm_compute; reflexivity]. constructor; [|constructor].
    split; [apply letter_ok; lia|]. split; [|vm_compute; reflexivity]. constructor; [apply cut_fpart_ok; [closed_range|exact HC]|constructor; [apply cut_fpart_ok; [closed_range|exact HC]|constructor]]. }
  split; [reflexivity|]. split; [vm_compute; discriminate|]. split; [vm_compute; reflexivity|].
  split; [vm_compute; reflexivity|]. split; [vm_compute; discriminate|]. split; [reflexivity|]. discriminate.
Qed.

(** * Outside the domain *)

Definition one_stream : stream_resp (E := Z) fslice := mkStream [97] 0 (cut_fpart 0).
Lemma one_stream_ok (P : fslice -> Prop) : P cut_slice -> stream_ok (in_s 16) P one_stream.
Proof.
  intros HP. split; [apply letter_ok; lia|]. split; [closed_range|]. apply cut_fpart_ok; [closed_range|exact HP].
Qed.
Lemma negative_version_refuted : exists st x frame rest, stream_ok (in_s 16) (held st) x
  /\ frame_dec (send_stream tags 0 st (-1) 7 x) = Frame frame rest /\ rest <> [].
Proof.
  destruct (frame_dec (send_stream tags 0 cut_st (-1) 7 one_stream)) as [|fr rest|] eqn:E; try (vm_compute in E; discriminate).
  exists cut_st, one_stream, fr, rest. split; [apply one_stream_ok; exact cut_held|]. split; [exact E|]. vm_compute in E. injection E as <- <-. discriminate.
Qed.
Lemma short_file_refuted : exists st x, stream_ok (in_s 16) (fun s => 0 <= f_pos s /\ 0 <= f_len s < 2 ^ 31 /\ is_bytes (st (f_fd s))) x
  /\ frame_dec (send_stream tags 0 st 10 7 x) = More.
Proof.
  exists (fun _ => [1; 2; 3]), one_stream. split; [|vm_compute; reflexivity]. apply one_stream_ok. cbn. split; [lia|]. split; [lia|].
  apply check_bytes. reflexivity.
Qed.

(** * Examples *)

(** Two whole batches in a file, sent to a follower, a consumer and a mirror. *)
Definition ex_l : list (batch bytes) := [demo 2 3; demo 1 5].
Definition ex_st : files := fun fd => if fd =? 3 then [1; 2] ++ flat_map (batch_enc raw_codec) ex_l ++ [9] else [].
Definition ex_slice : fslice := mkFs 3 2 (zlen (flat_map (batch_enc raw_codec) ex_l)).
Definition ex_f (s : fslice) : list (batch bytes) := if f_len s =? 0 then [] else ex_l.
Lemma ex_disk : on_disk ex_st ex_slice (ex_f ex_slice).
Proof.
  split; [|vm_compute; reflexivity]. unfold held. split; [cbn; lia|]. split; [vm_compute; split; congruence|]. split; [vm_compute; congruence|].
  apply check_bytes. vm_compute. reflexivity.
Qed.
Lemma ex_ok : Forall raw_batch_ok ex_l.
Proof. repeat (constructor; [apply demo_ok; [closed_range|vm_compute; reflexivity]|]). constructor. Qed.
Lemma ex_clean : held ex_st ex_slice /\ clean_slice ex_st ex_slice.
Proof.
  destruct ex_disk as [H E]. split; [exact H|]. exists ex_l, (zlen (flat_map (batch_enc raw_codec) ex_l)). split; [|apply clean_whole].
  split; [exact ex_ok|]. split; [split; [apply zlen_nonneg|lia]|]. split; [vm_compute; reflexivity|].
  rewrite E, ztake_all by lia. reflexivity.
Qed.
Definition ex_part (n : Z) : fpart (E := Z) fslice := mkFpart n 0 3 3 0 (Some [(1, 2)]) ex_slice.
Lemma ex_part_ok (P : fslice -> Prop) n : in_u 32 n -> P ex_slice -> fpart_ok (in_s 16) P (ex_part n).
Proof.
  intros H HP. unfold fpart_ok, ex_part. cbn [fp_index fp_error fp_hw fp_next fp_start fp_aborted fp_records].
  split; [exact H|]. split; [closed_range|]. split; [closed_range|]. split; [closed_range|]. split; [closed_range|].
  split; [split; [constructor; [split; closed_range|constructor]|vm_compute; reflexivity]|exact HP].
Qed.
Definition ex_stream : stream_resp (E := Z) fslice := mkStream [97] 5 (ex_part 1).
Lemma ex_stream_ok (P : fslice -> Prop) : P ex_slice -> stream_ok (in_s 16) P ex_stream.
Proof. intros HP. split; [apply letter_ok; lia|]. split; [closed_range|]. apply ex_part_ok; [closed_range|exact HP]. Qed.
Definition ex_fetch : fetch_resp (E := Z) fslice := mkFetch 0 0 4 [mkFtopic [97] [ex_part 0; ex_part 1]; mkFtopic [98] []].
Lemma ex_fetch_ok (P : fslice -> Prop) : P ex_slice -> fetch_ok (in_s 16) P ex_fetch.
Proof.
  intros HP. unfold fetch_ok, ex_fetch. cbn [fr_throttle fr_error fr_session fr_topics].
  split; [closed_range|]. split; [closed_range|]. split; [closed_range|]. split; [|vm_compute; reflexivity].
  constructor; [|constructor; [|constructor]]; (split; [apply letter_ok; lia|]; split; [|vm_compute; reflexivity]).
  - constructor; [apply ex_part_ok; [closed_range|exact HP]|constructor; [apply ex_part_ok; [closed_range|exact HP]|constructor]].
  - constructor.
Qed.
Definition ex_ppart : ppart (E := Z) fslice := mkPpart 1 0 2 3 ex_slice.
Lemma ex_ppart_ok (P : fslice -> Prop) : P ex_slice -> ppart_ok (in_s 16) P ex_ppart.
Proof.
  intros HP. unfold ppart_ok, ex_ppart. cbn [pp_index pp_error pp_hw pp_leo pp_records].
  split; [closed_range|]. split; [closed_range|]. split; [closed_range|]. split; [closed_range|exact HP].
Qed.
Definition ex_reps : list (bytes * ppart (E := Z) fslice) := [([97], ex_ppart); ([98], ex_ppart)].
Lemma ex_sync_ok (P : fslice -> Prop) : P ex_slice -> sync_ok (in_s 16) P (sync_of ex_reps).
Proof.
  intros HP. split; [|vm_compute; reflexivity]. cbn [sync_of ex_reps map fst snd].
  constructor; [|constructor; [|constructor]]; (split; [apply letter_ok; lia|]; split; [|vm_compute; reflexivity]; constructor; [apply ex_ppart_ok; exact HP|constructor]).
Qed.
Definition ex_mirror : mirror_req fslice := mkMirrorReq 2 3 ex_slice.
Lemma ex_mirror_ok (P : fslice -> Prop) : P ex_slice -> mirror_ok P ex_mirror.
Proof. intros HP. unfold mirror_ok, ex_mirror. cbn [mq_hw mq_leo mq_records]. split; [closed_range|]. split; [closed_range|exact HP]. Qed.

Lemma ex_sends : faithful tags (in_s 16)
  /\ stream_ok (in_s 16) (fun s => on_disk ex_st s (ex_f s)) ex_stream /\ zlen (send_stream tags 0 ex_st 10 7 ex_stream) < 2 ^ 31
  /\ fetch_ok (in_s 16) (fun s => on_disk ex_st s (ex_f s)) ex_fetch /\ zlen (send_fetch tags 0 ex_st 10 7 ex_fetch) < 2 ^ 31
  /\ rheader_ok cut_h
  /\ sync_ok (in_s 16) (fun s => on_disk ex_st s (ex_f s)) (sync_of ex_reps) /\ zlen (send_sync tags 0 ex_st cut_h (sync_of ex_reps)) < 2 ^ 31
  /\ mirror_ok (fun s => on_disk ex_st s (ex_f s)) ex_mirror /\ zlen (send_mirror ex_st cut_h ex_mirror) < 2 ^ 31.
Proof.
  split; [exact tags_faithful|]. split; [apply ex_stream_ok; exact ex_disk|]. split; [vm_compute; reflexivity|].
  split; [apply ex_fetch_ok; exact ex_disk|]. split; [vm_compute; reflexivity|]. split; [exact cut_h_ok|].
  split; [apply ex_sync_ok; exact ex_disk|]. split; [vm_compute; reflexivity|]. split; [apply ex_mirror_ok; exact ex_disk|vm_compute; reflexivity].
Qed.
(** A whole slice and one that is cut, one message after the other. *)
Definition ex_msgs : list (files * (Z * stream_resp (E := Z) fslice)) := [(ex_st, (7, ex_stream)); (cut_st, (8, one_stream))].
Lemma ex_arrives : Forall (fun m => in_s 32 (fst (snd m)) /\ stream_ok (in_s 16) (held (fst m)) (snd (snd m))
                     /\ zlen (send_stream tags 0 (fst m) 10 (fst (snd m)) (snd (snd m))) < 2 ^ 31) ex_msgs
  /\ fetch_ok (in_s 16) (fun s => held ex_st s /\ clean_slice ex_st s) ex_fetch
  /\ mirror_ok (held ex_st) ex_mirror.
Proof.
  split; [|split; [apply ex_fetch_ok; exact ex_clean|apply ex_mirror_ok; apply ex_clean]].
  constructor; [|constructor; [|constructor]]; cbn [fst snd].
  - split; [closed_range|]. split; [apply ex_stream_ok; apply ex_clean|vm_compute; reflexivity].
  - split; [closed_range|]. split; [apply one_stream_ok; exact cut_held|vm_compute; reflexivity].
Qed.
(** Of the replicas of a sync message only the last is cut. *)
Lemma ex_last : let st := fun fd => if fd =? 0 then cut_st 0 else ex_st fd in
  let reps := [([97], ex_ppart)] ++ [([98], cut_part)] in
  Forall (fun r => str_ok (fst r) /\ ppart_ok (in_s 16) (held st) (snd r)) reps
  /\ zlen (send_sync tags 0 st cut_h (sync_of reps)) < 2 ^ 31
  /\ Forall (fun r => clean_slice st (pp_records (snd r))) [([97], ex_ppart)]
  /\ exists l k, cut_at (contents st (pp_records cut_part)) l k /\ ~ clean_cut l k.
Proof.
  cbv zeta. split; [|split; [vm_compute; reflexivity|split]].
  - constructor; [|constructor; [|constructor]]; cbn [fst snd].
    + split; [apply letter_ok; lia|apply ex_ppart_ok; apply ex_clean].
    + split; [apply letter_ok; lia|exact cut_part_ok].
  - constructor; [|constructor]. apply ex_clean.
  - destruct (leader_cut (cut_p 86) (cut_p_ok 86 ltac:(lia)) cut_s 2 cut_m cut_reachable cut_in_net) as (l & k & C).
    exists l, k. split; [replace (contents _ (pp_records cut_part)) with (s_records cut_m) by (vm_compute; reflexivity); exact C|].
    intros D. apply (cut_leftover _ _ _ C) in D. vm_compute in D. discriminate.
Qed.
Lemma leader_clean_ex : params_ok (cut_p 1000) /\ c_seg_max (p_conf (cut_p 1000)) <= p_max_bytes (cut_p 1000)
  /\ reachable (cut_p 1000) (round1 1000 long) /\ exists m, In (ToFollower 2 m) (k_net (round1 1000 long)).
Proof.
  split; [apply cut_p_ok; lia|]. split; [vm_compute; congruence|]. split; [apply round1_reachable; right; reflexivity|].
  eexists. left. vm_compute. reflexivity.
Qed.
