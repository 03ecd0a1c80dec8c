(** A managed consumer of several partitions: commits and flushes. *)
From Coq Require Import Sorting.Sorted.
From Verif Require Import StorageSpec RecordSpec ListFacts.
From Verif Require Import ConsumerModel ConsumerSpec ConsumerProofs StreamModel StreamSpec.
From Verif Require Import ManageModel ManageSpec ManageProofs ManageInv StreamSpec.

Definition norec (w : world) : Prop := ~ In Reconnected (w_log w).
(** what is committed is stored, or nothing is committed *)
Definition sure (w : world) : Prop := l_comm (e_local (w_cur w)) = -1 \/ mine (w_stored w) (w_cur w) (l_comm (e_local (w_cur w))).
Definition told (w : world) : Prop := e_wait (w_cur w) = None -> answer_of (w_log w) = true -> sure w.
Definition good (w : world) : Prop := exists v0, wruns (world0 Manual v0) w.

Lemma no_auto v0 w z : wruns (world0 Manual v0) w -> ~ In (AutoSent z) (w_log w).
Proof.
  intros R. assert (w_mode w = Manual) as M by apply (mode_runs _ _ _ R). revert M.
  remember (world0 Manual v0) as w0 eqn:E0. induction R as [w|w w' w'' R IH MV]; intros M; subst; [cbn; auto|]. pose proof (mode_step _ _ MV) as EM. rewrite EM in M. specialize (IH eq_refl M).
  destruct MV as [w' o due full WT O0|w' due full|w' WT|w' WT|w'|w' x|w'|w' full WT|w' i x];
    unfold on_record, on_tick, on_commit, flush_begin, flush_cancel, on_note, on_close, on_reconnect, on_old, auto_flush; rewrite ?M; cbn; auto.
  - intros [A|A]; [discriminate|auto].
  - intros [A|A]; [discriminate|auto].
  - destruct (_ <=? _); cbn; [|destruct (negb _); cbn; auto]; intros [A|A]; (discriminate || auto).
  - destruct (e_queue (w_cur w')) as [|t' q]; cbn; auto. destruct x; cbn; [destruct (waits_for _ _)|destruct (waits_for _ _)|destruct (e_wait _)]; cbn; auto; intros [A|A]; (discriminate || auto).
  - destruct (e_wait _); cbn; auto. intros [A|A]; (discriminate || auto).
  - intros [A|A]; [discriminate|auto].
  - destruct (nth_error (w_old w') i) as [[|t' q]|]; auto.
Qed.
Lemma good_mode w : good w -> w_mode w = Manual.
Proof. intros (v0 & R). apply (mode_runs _ _ _ R). Qed.
Lemma good_calm w : good w -> norec w -> w_old w = [] /\ (exists v0, calm v0 Manual (w_log w) (w_stored w) (w_cur w)) /\ forall z, ~ In (AutoSent z) (w_log w).
Proof.
  intros (v0 & R) N. destruct (calm_runs Manual v0 w ltac:(discriminate) R N) as (A & B). split; [assumption|]. split; [eauto|]. intros z. eapply no_auto; eassumption.
Qed.
Lemma tick_manual due full w : w_mode w = Manual -> on_tick due full w = w.
Proof. intros M. unfold on_tick, set_cur. rewrite M. destruct w as [m v e o k]. cbn in *. subst m. reflexivity. Qed.
Lemma old_none i x w : w_old w = [] -> on_old i x w = w.
Proof. intros O. unfold on_old. rewrite O. destruct i; reflexivity. Qed.

(** * Nothing but a new connection is noted as one *)
Lemma norec_record o due full w : w_mode w = Manual -> norec w -> norec (on_record o due full w).
Proof. unfold norec, on_record. intros ->. cbn. intros N [E|E]; [discriminate|auto]. Qed.
Lemma norec_commit w : norec w -> norec (on_commit w).
Proof. unfold norec, on_commit. intros N. destruct (w_mode w); cbn; intros [E|E]; (discriminate || auto). Qed.
Lemma norec_flush w : norec w -> norec (flush_begin w).
Proof.
  unfold norec, flush_begin. intros N. destruct (w_mode w); cbn; [intros [E|E]; (discriminate || auto)| |]; (destruct (_ <=? _); cbn; [intros [E|E]; (discriminate || auto)|]; destruct (negb _); cbn; [intros [E|E]; (discriminate || auto)|auto]).
Qed.
Lemma norec_note x w : norec w -> norec (on_note x w).
Proof.
  unfold norec, on_note. intros N. destruct (e_queue _); [assumption|]. cbn. destruct x; [destruct (waits_for _ _)|destruct (waits_for _ _)|destruct (e_wait _)]; cbn; auto; intros [E|E]; (discriminate || auto).
Qed.
Lemma norec_close w : norec w -> norec (on_close w).
Proof. unfold norec, on_close. intros N. cbn. destruct (e_wait _); cbn; auto. intros [E|E]; (discriminate || auto). Qed.

(** * What is stored remains stored *)
Lemma sure_record o due full w : w_mode w = Manual -> sure w -> sure (on_record o due full w).
Proof. unfold sure, on_record. intros -> [E|(z & E & Z1 & Z2)]; cbn; [auto|]. right. exists z. auto. Qed.
Lemma sure_cancel w : sure w -> sure (flush_cancel w).
Proof. intros [E|(z & E & Z)]; [left|right; exists z]; auto. Qed.
Lemma sure_close w : sure w -> sure (on_close w).
Proof. intros [E|(z & E & Z1 & Z2)]; [left; assumption|right]. exists z. cbn. split; [assumption|]. split; [assumption|contradiction]. Qed.
Lemma sure_flush w : sure w -> sure (flush_begin w).
Proof.
  unfold flush_begin. intros S. destruct (w_mode w); [exact S| |]; (destruct (_ <=? _); [exact S|]; destruct (negb _); [exact S|]);
    (destruct S as [E|(z & E & Z1 & Z2)]; [left; assumption|right]; exists z; cbn; split; [assumption|]; split; [assumption|]; intros t IN; apply in_app_or in IN as [IN|[<-|[]]]; [auto|cbn; lia]).
Qed.
Lemma sure_note x w : good w -> norec w -> sure w -> sure (on_note x w).
Proof.
  intros G N S. destruct (good_calm _ G N) as (_ & (v0 & C) & _). unfold on_note, sure. destruct (e_queue (w_cur w)) as [|t q] eqn:EQ; [exact S|].
  cbn [w_cur w_stored]. destruct S as [E|(z & E & Z1 & Z2)].
  - left. destruct x; [destruct (waits_for _ _)|destruct (waits_for _ _)|]; cbn; assumption.
  - right. rewrite EQ in Z2. pose proof (Z2 t (or_introl eq_refl)) as Z3. pose proof (c_queue _ _ _ _ _ C t ltac:(rewrite EQ; left; reflexivity)) as Z4. pose proof (c_sorted _ _ _ _ _ C) as SO. rewrite EQ in SO. inversion SO as [|a b S' FA]; subst. rewrite Forall_forall in FA.
    assert (t_off t = z) as ET by lia.
    assert (store_note t x (w_stored w) = Some z) as ES. { unfold store_note. destruct (applied x); congruence. }
    rewrite ES. exists z. split; [reflexivity|]. destruct x; [destruct (waits_for _ _)|destruct (waits_for _ _)|]; cbn; (split; [lia|]); try contradiction; intros t' IN; apply Z2; right; assumption.
Qed.
(** the answer of a flush *)
Lemma told_flush w : good w -> norec w -> told (flush_begin w).
Proof.
  intros G N W A. destruct (good_calm _ G N) as (_ & (v0 & C) & NA). pose proof (good_mode _ G) as M. unfold flush_begin in *. rewrite M in *.
  destruct (_ <=? _) eqn:LE.
  - pose proof (c_le _ _ _ _ _ C). assert (l_flushed (e_local (w_cur w)) = l_comm (e_local (w_cur w))) as E by lia. pose proof (c_flushed _ _ _ _ _ C) as CF. rewrite E in CF.
    destruct CF as [CF|[CF|CF]]; [left; assumption|right; assumption|exfalso; eapply NA; eassumption].
  - destruct (negb _); cbn in *; discriminate.
Qed.
Lemma told_close w : told w -> told (on_close w).
Proof.
  intros T W A. unfold on_close in A. cbn in A. destruct (e_wait (w_cur w)) eqn:E; cbn in A; [discriminate|]. apply sure_close. apply T; assumption.
Qed.
Lemma told_note x w : good w -> norec w -> told w -> told (on_note x w).
Proof.
  intros G N T W A. destruct (e_wait (w_cur w)) as [i|] eqn:EW.
  - destruct (good_calm _ G N) as (_ & (v0 & C) & NA). unfold on_note in *. destruct (e_queue (w_cur w)) as [|t q] eqn:EQ; [congruence|].
    destruct x as [|b|b]; cbn [w_cur w_log] in *; [| |rewrite EW in *; cbn in A; discriminate].
    + destruct (waits_for (w_cur w) t) eqn:WF; cbn [fst e_wait] in W; [|congruence].
      unfold waits_for in WF. rewrite EW in WF. destruct (t_cb t) as [j|] eqn:EC; [|discriminate]. apply Nat.eqb_eq in WF. subst j.
      destruct (c_wait _ _ _ _ _ C i EW) as (_ & TT). rewrite EQ in TT. specialize (TT t (or_introl eq_refl) EC). pose proof (c_sorted _ _ _ _ _ C) as SO. rewrite EQ in SO. inversion SO as [|a b S' FA]; subst. rewrite Forall_forall in FA.
      right. unfold store_note. cbn. exists (t_off t). split; [reflexivity|]. split; [cbn; lia|]. intros t' IN. auto.
    + destruct (waits_for (w_cur w) t) eqn:WF; cbn in *; [discriminate|congruence].
  - assert (answer_of (w_log w) = true) as A'.
    { unfold on_note in A. destruct (e_queue _) as [|t q]; [assumption|]. cbn in A. unfold waits_for in A. rewrite EW in A. destruct x; cbn in A; assumption. }
    apply sure_note; auto.
Qed.

(** * All partitions *)
Definition waited (x : part) (f : fut) : Prop := match f with Created => True | Pending => told (q_world x) | Finished => sure (q_world x) end.
Definition stays (x x' : part) : Prop := norec (q_world x) -> norec (q_world x') /\ (sure (q_world x) -> sure (q_world x')).
Lemma stays_none x : stays x x. Proof. intros N. auto. Qed.
Lemma stays_all l : Forall2 stays l l. Proof. induction l; constructor; auto using stays_none. Qed.
Lemma stays_norec l l' : Forall2 stays l l' -> Forall (fun x => norec (q_world x)) l -> Forall (fun x => norec (q_world x)) l'.
Proof. induction 1 as [|x x' l l' S F IH]; intros N; inversion N; subst; constructor; auto. apply S. assumption. Qed.
Lemma stays_sure l l' : Forall2 stays l l' -> Forall (fun x => norec (q_world x)) l -> Forall (fun x => sure (q_world x)) l -> Forall (fun x => sure (q_world x)) l'.
Proof. induction 1 as [|x x' l l' S F IH]; intros N U; inversion N; inversion U; subst; constructor; auto. apply S; assumption. Qed.
Lemma stays_cancel l : Forall2 stays l (cancel_all l).
Proof. induction l as [|x l IH]; constructor; auto. intros N. split; [exact N|]. apply sure_cancel. Qed.

Lemma poll_one_flush x f x' r : good (q_world x) -> norec (q_world x) -> waited x f -> poll_one x f = (x', r) ->
  stays x x' /\ match r with Some true => sure (q_world x') | Some false => True | None => told (q_world x') end.
Proof.
  intros G N W. unfold poll_one. destruct f.
  - intros E. inversion E; subst. split; [intros _; split; [apply norec_flush; assumption|apply sure_flush]|].
    pose proof (told_flush _ G N) as T. cbn [set_world q_world]. destruct (e_wait (w_cur (flush_begin (q_world x)))) eqn:EW; [assumption|]. destruct (answer_of _) eqn:A; [|exact I]. apply T; assumption.
  - intros E. inversion E; subst. split; [apply stays_none|]. cbn [waited] in W. destruct (e_wait (w_cur (q_world x'))) eqn:EW; [assumption|]. destruct (answer_of _) eqn:A; [|exact I]. apply W; assumption.
  - intros E. inversion E; subst. split; [apply stays_none|assumption].
Qed.
Lemma poll_flushes l : forall fs, Forall (fun x => good (q_world x)) l -> Forall (fun x => norec (q_world x)) l -> Forall2 waited l fs -> let k := poll_join l fs in
  Forall2 stays l (fst (fst k)) /\ (snd k = None -> Forall2 waited (fst (fst k)) (snd (fst k))) /\ (snd k = Some true -> Forall (fun x => sure (q_world x)) (fst (fst k))).
Proof.
  assert (forall l fs, Forall (fun x => good (q_world x)) l -> Forall (fun x => norec (q_world x)) l -> Forall2 waited l fs -> let k := poll_join l fs in
    Forall2 stays l (fst (fst k)) /\ (snd k <> Some false -> Forall2 waited (fst (fst k)) (snd (fst k))) /\ (snd k = Some true -> Forall (fun x => sure (q_world x)) (fst (fst k)))) as X.
  { clear l. induction l as [|x l IH]; intros fs G N W; inversion W as [|x' f l' fs' W1 W2]; subst; cbn [poll_join]; [repeat constructor|]. inversion G; inversion N; subst.
    destruct (poll_one x f) as [x' r] eqn:P. destruct (poll_one_flush x f x' r ltac:(assumption) ltac:(assumption) W1 P) as (S & K). destruct (IH fs' ltac:(assumption) ltac:(assumption) W2) as (A & B & C).
    destruct r as [[|]|]; cbn [fst snd].
    - split; [constructor; assumption|]. split; [intros NE; constructor; [exact K|auto]|]. intros E. constructor; auto.
    - split; [constructor; [assumption|apply stays_all]|]. split; [congruence|discriminate].
    - split; [constructor; assumption|]. split; [|destruct (snd (poll_join l fs')) as [[|]|]; discriminate]. intros NE. constructor; [exact K|]. apply B. intros E. rewrite E in NE. congruence. }
  intros fs G N W k. destruct (X l fs G N W) as (A & B & C). split; [assumption|]. split; [|assumption]. intros E. apply B. fold k. congruence.
Qed.

Record FI (g : group) : Prop := {
  F_norec : Forall (fun x => norec (q_world x)) (g_parts g);
  F_sure : forall t, g_log g = AllFlushed :: t -> Forall (fun x => sure (q_world x)) (g_parts g);
  F_waited : forall fs, g_join g = Some fs -> Forall2 waited (g_parts g) fs }.

Lemma FI_set g i x x' : FI g -> nth_error (g_parts g) i = Some x -> stays x x' -> (norec (q_world x) -> told (q_world x) -> told (q_world x')) -> FI (set_part i x' g).
Proof.
  intros [N S W] NX ST TT. destruct (split_nth _ _ _ NX) as (a & b & E & L & SE). assert (norec (q_world x)) as NR by (apply (proj1 (Forall_forall _ _) N); eapply nth_error_In; eassumption).
  destruct (ST NR) as (NR' & SU). split; cbn [set_part g_parts g_log g_join]; rewrite SE; rewrite E in N.
  - apply Forall_app in N as (N1 & N2). inversion N2; subst. apply Forall_app. split; [assumption|]. constructor; assumption.
  - intros t T. specialize (S t T). rewrite E in S. apply Forall_app in S as (N1 & N2). inversion N2; subst. apply Forall_app. split; [assumption|]. constructor; auto.
  - intros fs T. specialize (W fs T). rewrite E in W. apply Forall2_app_inv_l in W as (f1 & f2 & W1 & W2 & ->). inversion W2 as [|y f l' fs' W3 W4]; subst. apply Forall2_app; [assumption|]. constructor; [|assumption].
    destruct f; cbn in *; auto.
Qed.
Lemma FI_goes g ps' nx gv lg : FI g -> Forall2 stays (g_parts g) ps' -> g_log g = lg -> FI (mkGroup ps' nx gv None lg).
Proof.
  intros [N S W] F <-. split; cbn [g_parts g_log g_join]; [eapply stays_norec; eassumption| |discriminate]. intros t T. eapply stays_sure; eauto.
Qed.
Lemma commit_norec l : Forall (fun x => norec (q_world x)) l -> Forall (fun x => norec (q_world x)) (fst (commit_loop l)).
Proof.
  induction 1 as [|x l N F IH]; [constructor|]. cbn [commit_loop]. destruct (w_mode (q_world x)); cbn [fst]; (constructor; [apply norec_commit; assumption|assumption]).
Qed.
Lemma stays_set l i x x' : nth_error l i = Some x -> stays x x' -> Forall2 stays l (set_nth i x' l).
Proof. intros N G. destruct (split_nth _ _ _ N) as (a & b & -> & L & E). rewrite E. apply Forall2_app; [apply stays_all|]. constructor; [assumption|apply stays_all]. Qed.
Lemma began_retry first nx full g g' : retry_from first nx full g = Some g' -> exists t, g_log g' = Began :: t.
Proof. unfold retry_from. destruct (reopen _ _ _ _); [|discriminate]. intros E. inversion E. cbn. eauto. Qed.

Lemma FI_step c p first retry a b : gmoves c p first retry a b -> Forall (fun x => good (q_world x)) (g_parts (snd a)) ->
  FI (snd a) -> In Began (g_log (snd b)) \/ FI (snd b).
Proof.
  intros MV GD F.
  assert (forall g i x, nth_error (g_parts g) i = Some x -> Forall (fun x => good (q_world x)) (g_parts g) -> good (q_world x)) as GN.
  { intros g i x NX G. apply (proj1 (Forall_forall _ _) G). eapply nth_error_In; eassumption. }
  destruct MV as [Hs g i x y NX MV|Hs g i x H a r' new NX NH OK LV EX ST LH|Hs g i due full fulls g' J HD IN|Hs g i g' LO|Hs g i x due full NX|Hs g i x o NX|Hs g i x NX|Hs g i x j o NX|Hs g J|Hs g J|Hs g|Hs g|Hs g full g' RE IN|Hs g full g' RT J RE IN]; cbn [fst snd] in *.
  - right. eapply FI_set; [exact F|exact NX|exact (stays_none x)|auto].
  - right. eapply FI_set; [exact F|exact NX|exact (stays_none x)|auto].
  - unfold hand in HD. destruct (nth_error (g_parts g) i) as [x|] eqn:NX; [|discriminate]. destruct (q_over x); [discriminate|]. pose proof (good_mode _ (GN _ _ _ NX GD)) as M.
    destruct (nth_error (y_out _) _) as [[k|]|] eqn:NT; [| |discriminate].
    + inversion HD; subst g'. right. rewrite J. apply FI_goes with (g := g); [assumption| |reflexivity]. eapply stays_set; [exact NX|]. intros N. cbn [q_world]. split; [apply norec_record; assumption|apply sure_record; assumption].
    + rewrite (tick_manual _ _ _ M) in HD. destruct retry; [left; destruct (began_retry _ _ _ _ _ HD) as (t & ->); left; reflexivity|]. inversion HD; subst g'. right. eapply FI_set; [exact F|exact NX|exact (stays_none x)|auto].
  - unfold lose in LO. destruct (nth_error (g_parts g) i) as [x|] eqn:NX; [|discriminate]. destruct (y_out _); [|discriminate]. inversion LO; subst g'. right. eapply FI_set; [exact F|exact NX|exact (stays_none x)|auto].
  - right. rewrite (tick_manual _ _ _ (good_mode _ (GN _ _ _ NX GD))). eapply FI_set; [exact F|exact NX|exact (stays_none x)|auto].
  - right. pose proof (GN _ _ _ NX GD) as G. eapply FI_set; [exact F|exact NX| |]; cbn [set_world q_world]; [intros N; split; [apply norec_note; assumption|apply sure_note; assumption]|intros N; apply told_note; assumption].
  - right. eapply FI_set; [exact F|exact NX| |]; cbn [set_world q_world]; [intros N; split; [apply norec_close; assumption|apply sure_close]|intros N; apply told_close].
  - right. assert (norec (q_world x)) as N by (apply (proj1 (Forall_forall _ _) (F_norec _ F)); eapply nth_error_In; eassumption).
    destruct (good_calm _ (GN _ _ _ NX GD) N) as (O & _). rewrite (old_none _ _ _ O). eapply FI_set; [exact F|exact NX|exact (stays_none x)|auto].
  - right. destruct F as [N S W]. split; cbn [commit_all g_parts g_log g_join]; [apply commit_norec; assumption| |intros fs E; rewrite J in E; discriminate].
    intros t E. exfalso. destruct (snd (commit_loop (g_parts g))); discriminate.
  - right. destruct F as [N S W]. split; cbn [start_flush g_parts g_log g_join]; auto. intros fs E. inversion E. clear. induction (g_parts g); constructor; auto. exact I.
  - unfold poll_flush. destruct (g_join g) as [fs|] eqn:J; [|auto]. right. pose proof F as [N S W]. destruct (poll_flushes _ fs GD N (W _ J)) as (A & B & C). destruct (snd (poll_join (g_parts g) fs)) as [[|]|].
    + split; cbn [g_parts g_log g_join]; [eapply stays_norec; eassumption| |discriminate]. intros t _. apply C. reflexivity.
    + split; cbn [g_parts g_log g_join]; [|discriminate|discriminate]. eapply stays_norec; [apply stays_cancel|]. eapply stays_norec; eassumption.
    + split; cbn [g_parts g_log g_join]; [eapply stays_norec; eassumption| |]. * intros t T. eapply stays_sure; eauto. * intros fs' E. inversion E; subst. apply B. reflexivity.
  - right. apply FI_goes with (g := g); [assumption|apply stays_cancel|reflexivity].
  - left. unfold restart in RE. destruct (reopen _ _ _ _); [|discriminate]. inversion RE. left; reflexivity.
  - left. destruct (began_retry _ _ _ _ _ RE) as (t & ->). left; reflexivity.
Qed.
(** the log of the application only grows *)
Lemma glog_grows c p first retry a b : gmoves c p first retry a b -> exists k, g_log (snd b) = k ++ g_log (snd a).
Proof.
  intros MV. destruct MV as [Hs g i x y NX MV|Hs g i x H a r' new NX NH OK LV EX ST LH|Hs g i due full fulls g' J HD IN|Hs g i g' LO|Hs g i x due full NX|Hs g i x o NX|Hs g i x NX|Hs g i x j o NX|Hs g J|Hs g J|Hs g|Hs g|Hs g full g' RE IN|Hs g full g' RT J RE IN]; cbn [fst snd] in *;
    try (exists []; reflexivity).
  - unfold hand in HD. destruct (nth_error (g_parts g) i) as [x|]; [|discriminate]. destruct (q_over x); [discriminate|]. destruct (nth_error (y_out _) _) as [[k|]|]; [| |discriminate].
    + inversion HD. exists []. reflexivity.
    + destruct retry; [|inversion HD; exists []; reflexivity]. unfold retry_from in HD. destruct (reopen _ _ _ _); [|discriminate]. inversion HD. exists [Began]. reflexivity.
  - unfold lose in LO. destruct (nth_error (g_parts g) i) as [x|]; [|discriminate]. destruct (y_out _); [|discriminate]. inversion LO. exists []. reflexivity.
  - eexists [_]. reflexivity.
  - unfold poll_flush. destruct (g_join g); [|exists []; reflexivity]. destruct (snd _) as [[|]|]; [exists [AllFlushed]|exists [FlushFailed]|exists []]; reflexivity.
  - unfold restart in RE. destruct (reopen _ _ _ _); [|discriminate]. inversion RE. exists [Began]. reflexivity.
  - unfold retry_from in RE. destruct (reopen _ _ _ _); [|discriminate]. inversion RE. exists [Began]. reflexivity.
Qed.
