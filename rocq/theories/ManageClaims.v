(** A managed consumer: the claims, and witnesses. *)
From Coq Require Import Sorting.Sorted.
From Verif Require Import StorageSpec RecordSpec RecordProofs StorageProofs ReplicaProofs StorageClaims ClusterProofs ListFacts.
From Verif Require Import ConsumerModel ConsumerSpec ConsumerProofs ConsumerClaims StreamModel StreamProofs StreamClaims StreamSpec.
From Verif Require Import ManageModel ManageSpec ManageProofs ManageInv ManageFlush StreamSpec StreamClaims.

Section Claims.
  Context (c : config) (p : params) (first : request) (retry : bool) (m : mode) (l : list (replica * option Z)) (Hs0 : logs) (g0 : group) (Hs : logs) (g : group).
  Context (MG : managed c p first retry m l Hs0 g0 Hs g) (RS : resumable first l) (ONE : retry = true -> length l = 1%nat).

  Lemma inv_of : GI c p retry m l g0 Hs g.
  Proof. destruct MG as (CO & SM & FIT & ON & FR & IN & R). eapply GI_runs; eassumption. Qed.
  Lemma part_of i x H : nth_error (g_parts g) i = Some x -> nth_error Hs i = Some H ->
    exists M, PI c p retry m (first_start g0 i) (stored_first l i) H x (given_by i g) (g_next g) M /\ hist c (part_store x) H /\ 0 <= get_log_start (part_store x) <= get_hw (part_store x)
      /\ get_hw (part_store x) <= lim p (part_store x) <= get_leo (part_store x) /\ get_leo (part_store x) < 2 ^ 63 /\ M = n_start (q_conn x) + Z.of_nat (n_taken (q_conn x)) /\ at_ c p H (q_conn x) M.
  Proof.
    intros NX NH. destruct MG as (CO & SM & FIT & ON & FR & IN & R). destruct (G_parts _ _ _ _ _ _ _ _ inv_of _ _ NX) as (H' & M & NH' & PX). rewrite NH in NH'. inversion NH'; subst H'. exists M.
    pose proof (P_at _ _ _ _ _ _ _ _ _ _ _ PX) as PA. destruct (at_facts c p retry CO FIT _ _ _ PA) as (HI & _ & _ & LS & LL & L63 & EM & _). auto 10.
  Qed.
  Lemma manage_in_order i x H : nth_error (g_parts g) i = Some x -> nth_error Hs i = Some H ->
    (exists before, given_by i g = before ++ between (n_start (q_conn x)) (n_start (q_conn x) + Z.of_nat (n_taken (q_conn x))) H) /\ forall z, In z (given_by i g) -> In z (flat_map records_of H).
  Proof.
    intros NX NH. destruct (part_of _ _ _ NX NH) as (M & PX & _ & _ & _ & _ & EM & _). split; [|apply (P_sound _ _ _ _ _ _ _ _ _ _ _ PX)]. destruct (P_given _ _ _ _ _ _ _ _ _ _ _ PX) as (B & EB). exists B. rewrite <- EM. exact EB.
  Qed.
  Lemma manage_not_lost i x H : nth_error (g_parts g) i = Some x -> nth_error Hs i = Some H ->
    w_stored (q_world x) = stored_first l i \/ exists o, w_stored (q_world x) = Some o /\ 0 <= o < lim p (part_store x) /\ covered H (part_store x) (given_by i g) (first_start g0 i) o.
  Proof.
    intros NX NH. destruct (part_of _ _ _ NX NH) as (M & PX & _). destruct (PI_stored c p retry m _ _ _ _ _ _ _ PX) as [E|(o & E & CV & O)]; [auto|right; exists o; auto].
  Qed.
  Lemma manage_complete i x H : nth_error (g_parts g) i = Some x -> nth_error Hs i = Some H -> quiet p (n_sys (q_conn x)) -> n_taken (q_conn x) = length (y_out (n_sys (q_conn x))) ->
    forall b z, In b H -> batch_end b <= lim p (part_store x) -> In z (records_of b) -> first_start g0 i <= fst z -> In z (given_by i g) \/ fst z < get_log_start (part_store x).
  Proof.
    intros NX NH QU ALL b z IB BE IZ FS. destruct (part_of _ _ _ NX NH) as (M & PX & _ & _ & _ & _ & EM & PA). destruct MG as (CO & SM & FIT & _).
    destruct (ManageProofs.at_rest c p retry CO SM FIT _ _ _ PA QU ALL b z IB BE IZ) as (Z1 & Z2). apply (P_cov _ _ _ _ _ _ _ _ _ _ _ PX); [assumption|lia].
  Qed.
  Lemma manage_log i x : nth_error (g_parts g) i = Some x -> offs (w_log (q_world x)) = rev (map fst (given_by i g)).
  Proof. intros NX. destruct (G_parts _ _ _ _ _ _ _ _ inv_of _ _ NX) as (H' & M & NH' & PX). apply (P_log _ _ _ _ _ _ _ _ _ _ _ PX). Qed.
  Lemma mode_of x : In x (g_parts g) -> w_mode (q_world x) = m.
  Proof. intros IN. apply In_nth_error in IN as (i & NX). destruct (G_parts _ _ _ _ _ _ _ _ inv_of _ _ NX) as (H' & M & NH' & PX). eapply mode_runs. apply (P_world _ _ _ _ _ _ _ _ _ _ _ PX). Qed.
  Lemma manage_commit : m <> NoManagement -> g_log (commit_all g) = CommitOk :: g_log g.
  Proof.
    intros NM. unfold commit_all. cbn [g_log]. f_equal. replace (snd (commit_loop (g_parts g))) with true; [reflexivity|]. symmetry.
    assert (forall k, (forall x, In x k -> w_mode (q_world x) = m) -> snd (commit_loop k) = true) as X; [|apply X; apply mode_of].
    induction k as [|x k IH]; intros K; [reflexivity|]. cbn [commit_loop]. rewrite (K x (or_introl eq_refl)). specialize (IH ltac:(intros y Y; apply K; right; assumption)). destruct m; [contradiction|exact IH|exact IH].
  Qed.
  Lemma manage_refused : m = NoManagement -> g_parts g <> [] -> g_join g = None -> g_log (commit_all g) = CommitErr :: g_log g /\ g_log (poll_flush (start_flush g)) = FlushFailed :: g_log g
    /\ forall i x, nth_error (g_parts g) i = Some x -> w_stored (q_world x) = stored_first l i.
  Proof.
    intros NM NE J. pose proof mode_of as K. rewrite NM in K. pose proof (G_waits _ _ _ _ _ _ _ _ inv_of) as W. rewrite J in W. cbn [waits] in W.
    assert (forall i x, nth_error (g_parts g) i = Some x -> w_stored (q_world x) = stored_first l i) as ST.
    { intros i y N. destruct (G_parts _ _ _ _ _ _ _ _ inv_of _ _ N) as (H' & M & NH' & PX). apply unmanaged. rewrite <- NM. apply (P_world _ _ _ _ _ _ _ _ _ _ _ PX). }
    destruct (g_parts g) as [|x k] eqn:E; [contradiction|]. pose proof (K x (or_introl eq_refl)) as KX. inversion W as [|x' k' WX WK]; subst x' k'.
    split; [unfold commit_all; rewrite E; cbn [commit_loop]; rewrite KX; reflexivity|]. split; [|assumption].
    unfold poll_flush, start_flush. cbn [g_join g_parts g_log]. rewrite E. cbn [map poll_join]. unfold poll_one. cbn [set_world q_world].
    assert (flush_begin (q_world x) = set_cur (q_world x) (w_cur (q_world x)) [FlushErr]) as -> by (unfold flush_begin; rewrite KX; reflexivity).
    cbn [set_cur w_cur w_log app answer_of]. rewrite WX. reflexivity.
  Qed.
  (** flushes *)
  Lemma flush_inv : m = Manual -> In Began (g_log g) \/ FI g.
  Proof.
    intros EM. destruct MG as (CO & SM & FIT & ON & FR & IN & R).
    assert (forall a, gruns c p first retry (Hs0, g0) a -> In Began (g_log (snd a)) \/ FI (snd a)) as X; [|apply (X _ R)].
    induction 1 as [|b d R' IH MV].
    - right. cbn [snd]. unfold first_run in FR. destruct (open_first m first l) as [k|] eqn:O; [|discriminate]. inversion FR. split; cbn; try discriminate.
      apply Forall_forall. intros x IX. apply In_nth_error in IX as (j & N). destruct (open_first_nth _ _ _ _ O) as (_ & A). destruct (A _ _ N) as (? & ? & ? & _ & _ & ->). cbn. intros [].
    - destruct IH as [IH|IH]; [left; destruct (glog_grows _ _ _ _ _ _ MV) as (k & ->); apply in_or_app; auto|].
      eapply FI_step; [exact MV| |exact IH]. destruct b as [Hs1 g1]. cbn [snd] in *. assert (GI c p retry m l g0 Hs1 g1) as G1 by (eapply GI_runs; eassumption).
      apply Forall_forall. intros x IX. apply In_nth_error in IX as (i & NX). destruct (G_parts _ _ _ _ _ _ _ _ G1 _ _ NX) as (H' & M & NH' & PX). exists (stored_first l i). rewrite <- EM. apply (P_world _ _ _ _ _ _ _ _ _ _ _ PX).
  Qed.
  Lemma manage_flush t i x : m = Manual -> g_log g = AllFlushed :: t -> ~ In Began t -> nth_error (g_parts g) i = Some x ->
    let lc := last_commit Manual (w_log (q_world x)) in
    lc = -1 /\ w_stored (q_world x) = stored_first l i \/ 0 <= lc < lim p (part_store x) /\ w_stored (q_world x) = Some lc.
  Proof.
    intros EM LG NB NX. cbv zeta. remember (last_commit Manual (w_log (q_world x))) as lc eqn:ELC. destruct (flush_inv EM) as [B|F]; [rewrite LG in B; destruct B as [B|B]; [discriminate|contradiction]|].
    destruct (G_parts _ _ _ _ _ _ _ _ inv_of _ _ NX) as (H & M & NH & PX). pose proof (P_world _ _ _ _ _ _ _ _ _ _ _ PX) as WR. rewrite EM in WR.
    pose proof (proj1 (Forall_forall _ _) (F_norec _ F) _ (nth_error_In _ _ NX)) as NR. pose proof (proj1 (Forall_forall _ _) (F_sure _ F _ LG) _ (nth_error_In _ _ NX)) as SU.
    destruct (calm_runs Manual _ _ ltac:(discriminate) WR NR) as (_ & C). pose proof (c_comm _ _ _ _ _ C) as CC. rewrite <- ELC in CC.
    assert (w_stored (q_world x) = stored_first l i \/ exists o, w_stored (q_world x) = Some o /\ 0 <= o <= lc /\ o < lim p (part_store x)) as ST.
    { destruct (never_beyond _ _ _ WR) as [E|(o & E & IH & LE)]; [auto|right]. exists o. destruct (P_handed _ _ _ _ _ _ _ _ _ _ _ PX o IH) as (_ & O). rewrite <- ELC in LE. split; [assumption|]. lia. }
    destruct (Z.eq_dec lc (-1)) as [E1|N1].
    - left. split; [assumption|]. destruct ST as [E|(o & E & O)]; [assumption|lia].
    - right. pose proof (last_commit_ge Manual (w_log (q_world x))) as GE. rewrite <- ELC in GE. destruct SU as [SU|(o & E & O & _)]; [lia|]. rewrite CC in O. assert (o = lc) as -> by lia. split; [|assumption].
      assert (fine Manual (w_log (q_world x)) lc) as (FH & _).
      { pose proof (proj1 (f_cur _ _ (safe_runs _ _ _ WR))) as (_ & _ & _ & D & _). rewrite (mode_runs _ _ _ WR) in D. rewrite CC in D. destruct D as [D|D]; [lia|exact D]. }
      destruct (P_handed _ _ _ _ _ _ _ _ _ _ _ PX lc FH) as (_ & O2). lia.
  Qed.
  Lemma manage_resume t full g' i x x' : m = Manual -> first = FromBeginning 0 -> g_log g = AllFlushed :: t -> ~ In Began t -> restart first full g = Some g' ->
    nth_error (g_parts g) i = Some x -> nth_error (g_parts g') i = Some x' ->
    let lc := last_commit Manual (w_log (q_world x)) in
    0 <= lc -> n_start (q_conn x') = Z.max (get_log_start (part_store x)) (Z.min (get_hw (part_store x)) (lc + 1)).
  Proof.
    intros EM EF LG NB RE NX NX' lc L0. destruct (manage_flush t i x EM LG NB NX) as [(E & _)|(O & ES)]; [lia|].
    unfold restart in RE. destruct (reopen _ _ _ _) as [k|] eqn:R; [|discriminate]. inversion RE; subst g'. cbn [g_parts] in NX'. destruct (reopen_nth _ _ _ _ _ R) as (_ & A). destruct (A _ _ NX') as (y & n & NY & OP & EX).
    rewrite NX in NY. inversion NY; subst y. subst x'. cbn [q_conn]. unfold open_part in OP. destruct (resolve _ _ _ _) as [s|] eqn:RV; [|discriminate]. inversion OP; subst n. cbn [open_conn n_start].
    destruct (G_parts _ _ _ _ _ _ _ _ inv_of _ _ NX) as (H & M & NH & _). destruct (part_of _ _ _ NX NH) as (_ & _ & _ & LS & LL & L63 & _).
    rewrite ES in RV. apply (resolve_at _ l) in RV; [|assumption|lia|lia|lia]. rewrite EF in RV. cbn [aim] in RV. lia.
  Qed.
End Claims.

(** A partition whose stream has ended is not read until the application is
    started again. *)
Definition same_over (x x' : part) : Prop := q_over x' = q_over x.
Lemma over_all k : Forall2 same_over k k. Proof. induction k; constructor; auto. reflexivity. Qed.
Lemma over_commit k : Forall2 same_over k (fst (commit_loop k)).
Proof. induction k as [|x k IH]; [constructor|]. cbn [commit_loop]. destruct (w_mode (q_world x)); cbn [fst]; (constructor; [reflexivity|auto using over_all]). Qed.
Lemma over_poll k : forall fs, Forall2 same_over k (fst (fst (poll_join k fs))).
Proof.
  induction k as [|x k IH]; intros [|f fs]; cbn [poll_join]; try apply over_all. destruct (poll_one x f) as [x' r] eqn:P.
  assert (same_over x x') as O by (unfold poll_one in P; destruct f; inversion P; reflexivity). destruct r as [[|]|]; cbn [fst snd]; (constructor; [assumption|auto using over_all]).
Qed.
Lemma over_cancel k : Forall2 same_over k (cancel_all k).
Proof. induction k; constructor; auto. reflexivity. Qed.
Lemma over_trans k k' k'' : Forall2 same_over k k' -> Forall2 same_over k' k'' -> Forall2 same_over k k''.
Proof. intros A. revert k''. induction A as [|x y k k' XY A IH]; intros k'' B; inversion B; subst; constructor; [unfold same_over in *; congruence|auto]. Qed.
Definition over_at (i : nat) (g : group) : Prop := exists x, nth_error (g_parts g) i = Some x /\ q_over x = true.
Lemma over_f2 i g ps' nx gv j lg : over_at i g -> Forall2 same_over (g_parts g) ps' -> over_at i (mkGroup ps' nx gv j lg).
Proof.
  intros (x & N & O) F. unfold over_at. cbn [g_parts]. revert i N. induction F as [|a b ka kb AB F IH]; intros [|i] N; try discriminate; [|apply IH; assumption]. inversion N; subst. exists b. split; [reflexivity|]. unfold same_over in AB. congruence.
Qed.
Lemma over_set i j x x' g : over_at i g -> nth_error (g_parts g) j = Some x -> (q_over x = true -> q_over x' = true) -> over_at i (set_part j x' g).
Proof.
  intros (y & N & O) NJ K. unfold over_at. cbn [set_part g_parts]. rewrite (nth_set _ _ _ _ _ NJ). destruct (Nat.eqb i j) eqn:E; [|eauto]. apply Nat.eqb_eq in E. subst j. rewrite N in NJ. inversion NJ; subst. eauto.
Qed.
Lemma over_step c p first retry a b i : gmoves c p first retry a b -> over_at i (snd a) ->
  (exists k, g_log (snd b) = k ++ g_log (snd a) /\ In Began k) \/ over_at i (snd b) /\ given_by i (snd b) = given_by i (snd a).
Proof.
  intros MV OV. destruct MV as [Hs g j x y NX MV|Hs g j x H a r' new NX NH OK LV EX ST LH|Hs g j due full fulls g' J HD IN|Hs g j g' LO|Hs g j x due full NX|Hs g j x o NX|Hs g j x NX|Hs g j x j' o NX|Hs g J|Hs g J|Hs g|Hs g|Hs g full g' RE IN|Hs g full g' RT J RE IN]; cbn [fst snd] in *.
  1,2,5,6,7,8: right; (split; [eapply over_set; [exact OV|exact NX|auto]|reflexivity]).
  - unfold hand in HD. destruct (nth_error (g_parts g) j) as [x|] eqn:NX; [|discriminate]. destruct (q_over x) eqn:QO; [discriminate|]. destruct (nth_error (y_out _) _) as [[k|]|]; [| |discriminate].
    + inversion HD. right. assert (j <> i) as NE. { intros ->. destruct OV as (y & N & O). congruence. }
      split; [|rewrite (given_snoc j i (cr_offset k, cr_rec k) g) by reflexivity; destruct (Nat.eqb j i) eqn:E; [apply Nat.eqb_eq in E; contradiction|reflexivity]].
      destruct OV as (y & N & O). exists y. cbn [g_parts]. rewrite (nth_set _ _ _ _ _ NX). destruct (Nat.eqb i j) eqn:E; [apply Nat.eqb_eq in E; congruence|]. auto.
    + destruct retry.
      * unfold retry_from in HD. destruct (reopen _ _ _ _); [|discriminate]. inversion HD. left. exists [Began]. split; [reflexivity|left; reflexivity].
      * inversion HD. right. split; [eapply over_set; [exact OV|exact NX|auto]|reflexivity].
  - unfold lose in LO. destruct (nth_error (g_parts g) j) as [x|] eqn:NX; [|discriminate]. destruct (y_out _); [|discriminate]. inversion LO. right. split; [eapply over_set; [exact OV|exact NX|auto]|reflexivity].
  - right. split; [|reflexivity]. eapply over_f2; [exact OV|apply over_commit].
  - right. split; [|reflexivity]. eapply over_f2; [exact OV|apply over_all].
  - right. unfold poll_flush. destruct (g_join g); [|auto]. destruct (snd _) as [[|]|]; (split; [|reflexivity]); (eapply over_f2; [exact OV|]); try apply over_poll. eapply over_trans; [apply over_poll|apply over_cancel].
  - right. split; [|reflexivity]. eapply over_f2; [exact OV|apply over_cancel].
  - unfold restart in RE. destruct (reopen _ _ _ _); [|discriminate]. inversion RE. left. exists [Began]. split; [reflexivity|left; reflexivity].
  - unfold retry_from in RE. destruct (reopen _ _ _ _); [|discriminate]. inversion RE. left. exists [Began]. split; [reflexivity|left; reflexivity].
Qed.
Lemma over_runs c p first retry a b i : gruns c p first retry a b -> over_at i (snd a) -> same_run (snd a) (snd b) -> over_at i (snd b) /\ given_by i (snd b) = given_by i (snd a).
Proof.
  intros R OV. assert (exists k, g_log (snd b) = k ++ g_log (snd a) /\ (In Began k \/ over_at i (snd b) /\ given_by i (snd b) = given_by i (snd a))) as (k & EK & K).
  { induction R as [|b d R IH MV]; [exists []; auto|]. destruct IH as (k & EK & IH). destruct (glog_grows _ _ _ _ _ _ MV) as (k' & EK'). exists (k' ++ k). split; [rewrite EK', EK, app_assoc; reflexivity|].
    destruct IH as [IH|(O & G)]; [left; apply in_or_app; auto|]. destruct (over_step _ _ _ _ _ _ i MV O) as [(k2 & E2 & B)|(O' & G')]; [|right; split; [assumption|congruence]].
    left. apply in_or_app. left. rewrite E2 in EK'. apply app_inv_tail in EK'. subst k2. assumption. }
  intros (k2 & E2 & NB). rewrite E2 in EK. apply app_inv_tail in EK. subst k2. destruct K as [K|K]; [contradiction|assumption].
Qed.

(** * Witnesses *)
Inductive gcmd := GGo (i : nat) | GHand (i : nat) | GLose (i : nat) | GNote (i : nat) (o : outcome) | GCommit | GFlush | GPoll | GRestart (full : bool) | GRetry.
Definition inside (p : params) (g : group) : bool := forallb (fun x => n_start (q_conn x) <=? log_limit (p_iso p) (part_store x)) (g_parts g).
Definition if_inside (p : params) (g : option group) : option group := match g with Some g => if inside p g then Some g else None | None => None end.
Definition gact (p : params) (first : request) (retry : bool) (g : group) (a : gcmd) : option group :=
  match a with
  | GGo i => match nth_error (g_parts g) i with
             | Some x => match next_move p (n_start (q_conn x)) (n_sys (q_conn x)) with
                         | Some y => Some (set_part i (mkPart (conn_move (q_conn x) y) (q_world x) (q_over x)) g)
                         | None => Some g end
             | None => None end
  | GHand i => match g_join g with None => if_inside p (hand first retry i false false (fun _ => false) g) | Some _ => None end
  | GLose i => lose i g
  | GNote i o => match nth_error (g_parts g) i with Some x => Some (set_part i (set_world x (on_note o (q_world x))) g) | None => None end
  | GCommit => match g_join g with None => Some (commit_all g) | Some _ => None end
  | GFlush => match g_join g with None => Some (start_flush g) | Some _ => None end
  | GPoll => Some (poll_flush g)
  | GRestart full => if_inside p (restart first (fun _ => full) g)
  | GRetry => match g_join g with None => if retry then if_inside p (retry_from first (g_next g) (fun _ => false) g) else None | Some _ => None end
  end.
Fixpoint gacts (p : params) (first : request) (retry : bool) (k : list gcmd) (g : group) : option group :=
  match k with [] => Some g | a :: k => match gact p first retry g a with Some g' => gacts p first retry k g' | None => None end end.
Lemma inside_ok p g : inside p g = true -> started_inside p g.
Proof. unfold inside, started_inside. rewrite forallb_forall, Forall_forall. intros F x IN. specialize (F x IN). lia. Qed.
Lemma if_inside_ok p o g : if_inside p o = Some g -> o = Some g /\ started_inside p g.
Proof. unfold if_inside. destruct o as [g'|]; [|discriminate]. destruct (inside p g') eqn:E; [|discriminate]. intros X. inversion X; subst. split; [reflexivity|apply inside_ok; assumption]. Qed.
Lemma gacts_run c p first retry x Hs k : forall g g', gruns c p first retry x (Hs, g) -> gacts p first retry k g = Some g' -> gruns c p first retry x (Hs, g').
Proof.
  induction k as [|a k IH]; intros g g' R E; [inversion E; subst; exact R|]. cbn [gacts] in E. destruct (gact p first retry g a) as [g1|] eqn:A; [|discriminate].
  apply (IH g1 g'); [|exact E]. destruct a as [i|i|i|i o| | | |full|]; cbn [gact] in A.
  - destruct (nth_error (g_parts g) i) as [y|] eqn:N; [|discriminate]. destruct (next_move p _ _) as [z|] eqn:M; inversion A; subst; [|exact R].
    eapply gruns_step; [exact R|]. apply g_stream; [assumption|]. apply next_moves. assumption.
  - destruct (g_join g) eqn:J; [discriminate|]. apply if_inside_ok in A as (A & B). eapply gruns_step; [exact R|]. eapply g_read; eassumption.
  - eapply gruns_step; [exact R|]. eapply g_lost; eassumption.
  - destruct (nth_error (g_parts g) i) as [y|] eqn:N; inversion A; subst. eapply gruns_step; [exact R|]. apply g_note. assumption.
  - destruct (g_join g) eqn:J; inversion A; subst. eapply gruns_step; [exact R|]. apply g_commit. assumption.
  - destruct (g_join g) eqn:J; inversion A; subst. eapply gruns_step; [exact R|]. apply g_flush. assumption.
  - inversion A; subst. eapply gruns_step; [exact R|]. apply g_poll.
  - apply if_inside_ok in A as (A & B). eapply gruns_step; [exact R|]. eapply g_restart; eassumption.
  - destruct (g_join g) eqn:J; [discriminate|]. destruct retry eqn:RT; [|discriminate]. apply if_inside_ok in A as (A & B). eapply gruns_step; [exact R|]. eapply g_retry; eauto.
Qed.
Definition noone : group := mkGroup [] None [] None [].
Definition begun (m : mode) (first : request) (k : list (replica * option Z)) : group := or_none noone (first_run m first k).
Definition after (first : request) (retry : bool) (k : list gcmd) (g : group) : group := or_none noone (gacts (plain 160) first retry k g).
Definition gos (i k : nat) : list gcmd := repeat (GGo i) k.
Definition gives (i k : nat) : list gcmd := repeat (GHand i) k.
Definition flushes : list gcmd := [GCommit; GFlush; GPoll; GNote 0 Confirmed; GPoll; GNote 1 Confirmed; GPoll].

Lemma st_on (k : list (option Z)) : Forall (fun v => match v with Some o => 0 <= o < 5 | None => True end) k -> on_partitions st_c (map (fun _ => st_H) k) (map (fun v => (st_r, v)) k).
Proof.
  induction 1 as [|v k V F IH]; cbn [map]; constructor; auto. cbn [fst snd]. split; [apply st_hist|]. split; [vm_compute; congruence|]. destruct st_shape as (_ & _ & _ & ->). exact V.
Qed.
Lemma begin_managed first retry m k s g : Forall (fun v => match v with Some o => 0 <= o < 5 | None => True end) k ->
  first_run m first (map (fun v => (st_r, v)) k) = Some (begun m first (map (fun v => (st_r, v)) k)) -> inside (plain 160) (begun m first (map (fun v => (st_r, v)) k)) = true ->
  gacts (plain 160) first retry s (begun m first (map (fun v => (st_r, v)) k)) = Some g ->
  managed st_c (plain 160) first retry m (map (fun v => (st_r, v)) k) (map (fun _ => st_H) k) (begun m first (map (fun v => (st_r, v)) k)) (map (fun _ => st_H) k) g.
Proof.
  intros F FR IN E. split; [apply st_c_ok|]. split; [reflexivity|]. split; [cbn; lia|]. split; [apply st_on; assumption|]. split; [assumption|]. split; [apply inside_ok; assumption|].
  eapply gacts_run; [apply gruns_none|exact E].
Qed.
Ltac begin_tac first retry m k s := apply (begin_managed first retry m k s); [repeat constructor; lia|vm_compute; reflexivity|vm_compute; reflexivity|vm_compute; reflexivity].

Ltac now_parts g := let v := eval vm_compute in (g_parts g) in replace (g_parts g) with v by (vm_compute; reflexivity).

(** Two partitions.  Two records of the first, one of the second; commit, flush;
    one more; the application crashes; all the rest. *)
Definition two : list (replica * option Z) := [(st_r, None); (st_r, Some 1)].
Definition demo_1 : list gcmd := gos 0 20 ++ gos 1 20 ++ gives 0 2 ++ gives 1 1 ++ flushes.
Definition demo_2 : list gcmd := demo_1 ++ gives 0 1 ++ [GRestart true] ++ gos 0 20 ++ gos 1 20 ++ gives 0 3 ++ gives 1 2.
Definition g_0 : group := begun Manual (FromBeginning 0) two.
Definition g_1 : group := after (FromBeginning 0) false demo_1 g_0.
Definition g_2 : group := after (FromBeginning 0) false demo_2 g_0.
Lemma demo_1_ok : managed st_c (plain 160) (FromBeginning 0) false Manual two [st_H; st_H] g_0 [st_H; st_H] g_1 /\ resumable (FromBeginning 0) two
  /\ (exists t, g_log g_1 = AllFlushed :: t /\ ~ In Began t) /\ map (fun x => w_stored (q_world x)) (g_parts g_1) = [Some 1; Some 2] /\ g_join g_1 = None.
Proof.
  split; [begin_tac (FromBeginning 0) false Manual [None; Some 1] demo_1|].
  split; [reflexivity|]. split; [exists [CommitOk]; split; [vm_compute; reflexivity|intros [X|[]]; discriminate]|]. split; vm_compute; reflexivity.
Qed.
Lemma demo_2_ok : managed st_c (plain 160) (FromBeginning 0) false Manual two [st_H; st_H] g_0 [st_H; st_H] g_2
  /\ map fst (given_by 0 g_2) = [0; 1; 2; 2; 3; 4] /\ map fst (given_by 1 g_2) = [2; 3; 4]
  /\ Forall (fun x => quiet (plain 160) (n_sys (q_conn x)) /\ n_taken (q_conn x) = length (y_out (n_sys (q_conn x)))) (g_parts g_2).
Proof.
  split; [begin_tac (FromBeginning 0) false Manual [None; Some 1] demo_2|].
  split; [vm_compute; reflexivity|]. split; [vm_compute; reflexivity|]. now_parts g_2. rested_tac.
Qed.
(** A consumer that retries, two partitions: three records of the first, the
    connection fails, all the rest, commit and flush.  The first records of the
    second are skipped for good. *)
Definition none2 : list (replica * option Z) := [(st_r, None); (st_r, None)].
Definition lost_1 : list gcmd := gos 0 20 ++ gives 0 3 ++ [GRetry] ++ gos 0 20 ++ gos 1 20 ++ gives 0 2 ++ gives 1 2 ++ flushes ++ [GRestart false].
Definition z0 : Z * rec := (0, mkRec 0 0 0 None [1] 0).
Lemma retry_loses : exists c p l Hs0 g0 g x H z, managed c p (FromBeginning 0) true Manual l Hs0 g0 Hs0 g /\ resumable (FromBeginning 0) l
  /\ nth_error (g_parts g) 1 = Some x /\ nth_error Hs0 1 = Some H /\ In z (flat_map records_of H) /\ first_start g0 1 <= fst z /\ get_log_start (part_store x) <= fst z
  /\ ~ In z (given_by 1 g) /\ w_stored (q_world x) = Some 4 /\ n_start (q_conn x) = 5 /\ fst z = 0.
Proof.
  exists st_c, (plain 160), none2, [st_H; st_H], (begun Manual (FromBeginning 0) none2), (after (FromBeginning 0) true lost_1 (begun Manual (FromBeginning 0) none2)). eexists. exists st_H, z0.
  split; [begin_tac (FromBeginning 0) true Manual [@None Z; @None Z] lost_1|]. split; [reflexivity|]. split; [vm_compute; reflexivity|]. split; [reflexivity|].
  split; [vm_compute; auto|]. split; [vm_compute; congruence|]. split; [vm_compute; congruence|]. split; [|vm_compute; repeat split; reflexivity].
  vm_compute. intros IN. repeat destruct IN as [IN|IN]; try discriminate IN; assumption.
Qed.
(** Started one record after the beginning: the distance is applied again to the
    stored offset, and a record that was not given is skipped *)
Definition skip_1 : list gcmd := gos 0 20 ++ gos 1 20 ++ gives 0 1 ++ flushes ++ [GRestart false] ++ gos 0 20 ++ gives 0 2 ++ gos 1 20.
Definition z2 : Z * rec := (2, mkRec 0 0 0 None [3] 0).
Lemma offset_skips : exists c p l Hs0 g0 g x H z, managed c p (FromBeginning 1) false Manual l Hs0 g0 Hs0 g
  /\ nth_error (g_parts g) 0 = Some x /\ nth_error Hs0 0 = Some H /\ In z (flat_map records_of H) /\ first_start g0 0 <= fst z /\ get_log_start (part_store x) <= fst z
  /\ ~ In z (given_by 0 g) /\ map fst (given_by 0 g) = [1; 3; 4] /\ fst z = 2 /\ quiet p (n_sys (q_conn x)).
Proof.
  exists st_c, (plain 160), none2, [st_H; st_H], (begun Manual (FromBeginning 1) none2), (after (FromBeginning 1) false skip_1 (begun Manual (FromBeginning 1) none2)). eexists. exists st_H, z2.
  split; [begin_tac (FromBeginning 1) false Manual [@None Z; @None Z] skip_1|]. split; [vm_compute; reflexivity|]. split; [reflexivity|].
  split; [vm_compute; auto|]. split; [vm_compute; congruence|]. split; [vm_compute; congruence|]. split; [|split; [vm_compute; reflexivity|]; split; [reflexivity|apply (quiet_now _ 0); [vm_compute; reflexivity|vm_compute; discriminate]]].
  vm_compute. intros IN. repeat destruct IN as [IN|IN]; try discriminate IN; assumption.
Qed.
(** Started at an offset: it is started there again, whatever is stored *)
Definition again_1 : list gcmd := gos 0 20 ++ gos 1 20 ++ gives 0 5 ++ flushes ++ [GRestart false] ++ gos 0 20 ++ gives 0 1.
Lemma absolute_again : exists c p l Hs0 g0 g x, managed c p (Absolute 0) false Manual l Hs0 g0 Hs0 g /\ resumable (Absolute 0) l
  /\ nth_error (g_parts g) 0 = Some x /\ w_stored (q_world x) = Some 4 /\ map fst (given_by 0 g) = [0; 1; 2; 3; 4; 0].
Proof.
  exists st_c, (plain 160), none2, [st_H; st_H], (begun Manual (Absolute 0) none2), (after (Absolute 0) false again_1 (begun Manual (Absolute 0) none2)). eexists.
  split; [begin_tac (Absolute 0) false Manual [@None Z; @None Z] again_1|]. split; [cbn; lia|]. split; [vm_compute; reflexivity|]. split; vm_compute; reflexivity.
Qed.
Definition over_b (i : nat) (g : group) : bool := match nth_error (g_parts g) i with Some x => q_over x | None => false end.
Lemma over_b_ok i g : over_b i g = true -> over_at i g.
Proof. unfold over_b, over_at. destruct (nth_error (g_parts g) i) as [x|]; [eauto|discriminate]. Qed.
Lemma silence c p first retry Hs g i : over_b i g = true -> given_by i g = [] -> forall Hs' g', gruns c p first retry (Hs, g) (Hs', g') -> same_run g g' -> given_by i g' = [].
Proof. intros O E Hs' g' R S. destruct (over_runs _ _ _ _ _ _ i R (over_b_ok _ _ O) S) as (_ & E'). cbn [snd] in E'. congruence. Qed.
(** The connection of the first partition is lost before anything has arrived *)
Definition silent_1 : list gcmd := [GLose 0] ++ gos 0 20 ++ gos 1 20 ++ gives 1 5.
Lemma ends_silently : exists c p l Hs0 g0 g H, managed c p (FromBeginning 0) false Manual l Hs0 g0 Hs0 g
  /\ nth_error Hs0 0 = Some H /\ flat_map records_of H <> [] /\ map fst (given_by 1 g) = [0; 1; 2; 3; 4] /\ g_log g = []
  /\ forall Hs' g', gruns c p (FromBeginning 0) false (Hs0, g) (Hs', g') -> same_run g g' -> given_by 0 g' = [].
Proof.
  exists st_c, (plain 160), none2, [st_H; st_H], (begun Manual (FromBeginning 0) none2), (after (FromBeginning 0) false silent_1 (begun Manual (FromBeginning 0) none2)), st_H.
  split; [begin_tac (FromBeginning 0) false Manual [@None Z; @None Z] silent_1|]. split; [reflexivity|]. split; [vm_compute; discriminate|]. split; [vm_compute; reflexivity|]. split; [vm_compute; reflexivity|].
  apply silence; vm_compute; reflexivity.
Qed.
(** Started at the end, nothing stored: a record arrives, the application crashes
    before it is read, and starts at the end again *)
Definition end_0 : group := begun Manual (FromEnd 0) [(st_r, None)].
Definition end_1 : group := mkGroup [mkPart (mkConn 5 (set_store (start_stream st_r 5) end_r) O 0) (world0 Manual None) false] None [] None [].
Definition z5 : Z * rec := (5, mkRec 0 0 0 None [6] 0).
Lemma end_skips : exists c p l Hs0 g0 Hs g x H z, managed c p (FromEnd 0) false Manual l Hs0 g0 Hs g
  /\ nth_error (g_parts g) 0 = Some x /\ nth_error Hs 0 = Some H /\ In z (flat_map records_of H) /\ first_start g0 0 <= fst z < log_limit (p_iso p) (part_store x) /\ get_log_start (part_store x) <= fst z
  /\ quiet p (n_sys (q_conn x)) /\ n_taken (q_conn x) = length (y_out (n_sys (q_conn x))) /\ given_by 0 g = [].
Proof.
  exists st_c, (plain 160), [(st_r, None)], [st_H], end_0, [end_H], (after (FromEnd 0) false ([GRestart true] ++ gos 0 20) end_1). eexists. exists end_H, z5. split.
  { split; [apply st_c_ok|]. split; [reflexivity|]. split; [cbn; lia|]. split; [apply (st_on [None]); repeat constructor|]. split; [vm_compute; reflexivity|]. split; [apply inside_ok; vm_compute; reflexivity|].
    eapply gacts_run with (g := end_1) (k := [GRestart true] ++ gos 0 20); [|vm_compute; reflexivity]. eapply gruns_step; [apply gruns_none|].
    assert (nth_error (g_parts end_0) 0 = Some (mkPart (open_conn st_r 5) (world0 Manual None) false)) as N0 by (vm_compute; reflexivity).
    assert (op_ok st_c st_r (Write 0 end_new true)) as N1 by (split; [unfold end_new; constructor; [msgs_ok|constructor]|room_tac]).
    assert (live st_r (Write 0 end_new true)) as N2 by (cbn [live]; unfold end_new; constructor; [honest_tac|constructor]).
    assert (exec st_c st_r (Write 0 end_new true) = Done end_r) as N3 by (vm_compute; reflexivity).
    assert (stored_by (Write 0 end_new true) st_r end_r (number 5 end_new)) as N4.
    { split; [vm_compute; repeat split; reflexivity|]. exists 1%nat. vm_compute. reflexivity. }
    assert (get_log_start end_r <= get_hw end_r) as N5 by (vm_compute; congruence).
    pose proof (g_storage st_c (plain 160) (FromEnd 0) false [st_H] end_0 0 _ st_H _ _ _ N0 eq_refl N1 N2 N3 N4 N5) as X.
    match type of X with gmoves _ _ _ _ _ ?y => replace ([end_H], end_1) with y by (vm_compute; reflexivity) end. exact X. }
  split; [vm_compute; reflexivity|]. split; [reflexivity|]. split; [vm_compute; tauto|]. split; [split; [vm_compute; congruence|vm_compute; reflexivity]|]. split; [vm_compute; congruence|].
  split; [apply (quiet_now _ 0); [vm_compute; reflexivity|vm_compute; discriminate]|]. split; vm_compute; reflexivity.
Qed.
(** One partition, a consumer that retries: two records, the connection fails, the
    rest *)
Definition retry_1 : list gcmd := gos 0 20 ++ gives 0 2 ++ [GRetry] ++ gos 0 20 ++ gives 0 3.
Lemma retry_demo : exists g, managed st_c (plain 160) (FromBeginning 0) true Manual [(st_r, None)] [st_H] (begun Manual (FromBeginning 0) [(st_r, None)]) [st_H] g
  /\ resumable (FromBeginning 0) [(st_r, None)] /\ map fst (given_by 0 g) = [0; 1; 2; 3; 4] /\ length [(st_r, @None Z)] = 1%nat.
Proof.
  exists (after (FromBeginning 0) true retry_1 (begun Manual (FromBeginning 0) [(st_r, None)])).
  split; [begin_tac (FromBeginning 0) true Manual [@None Z] retry_1|]. split; [reflexivity|]. split; vm_compute; reflexivity.
Qed.
Lemma refused_demo : exists g, managed st_c (plain 160) (FromBeginning 0) false NoManagement two [st_H; st_H] (begun NoManagement (FromBeginning 0) two) [st_H; st_H] g
  /\ resumable (FromBeginning 0) two /\ map fst (given_by 0 g) = [0; 1] /\ g_join g = None /\ g_parts g <> [].
Proof.
  exists (after (FromBeginning 0) false (gos 0 20 ++ gives 0 2) (begun NoManagement (FromBeginning 0) two)).
  split; [begin_tac (FromBeginning 0) false NoManagement [None; Some 1] (gos 0 20 ++ gives 0 2)|]. split; [reflexivity|]. split; [vm_compute; reflexivity|]. split; [vm_compute; reflexivity|vm_compute; discriminate].
Qed.
