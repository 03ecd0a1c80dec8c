(** Proofs of the properties of the producer. *)
From Coq Require Import Sorting.Sorted.
From Verif Require Import ProducerModel ListFacts WireProofs StorageSpec StorageProofs ReplicaProofs ClusterProofs RecordSpec RecordProofs StorageClaims ProduceSpec ProduceClaims ProducerSpec ProducerProofs.

(** * C37 *)
Lemma done_carried k T l : conf_ok k -> 0 <= T < 2 ^ 62 -> Forall (mb_ok k T) l ->
  flat_map carried (map (fun b => to_raw (mb_batch b)) l) = flat_map (fun b => map payload_of (mb_recs b)) l.
Proof.
  intros KO HT H. induction H as [|b l B _ IH]; [reflexivity|]. cbn [map flat_map]. rewrite IH, (mb_carried k T b) by assumption. reflexivity.
Qed.
Lemma tickets_payloads id l : forall i, map snd (tickets id i l) = l.
Proof. induction l as [|x l IH]; intros i; cbn [tickets map snd]; [reflexivity|]. f_equal. apply IH. Qed.
Lemma all_payloads l : map snd (flat_map tickets_of l) = flat_map (fun b => map payload_of (mb_recs b)) l.
Proof. induction l as [|b l IH]; cbn [flat_map]; [reflexivity|]. rewrite map_app, IH. unfold tickets_of. rewrite tickets_payloads. reflexivity. Qed.
Lemma flat_flat {A B C} (f : A -> list B) (g : B -> list C) l : flat_map (fun x => flat_map g (f x)) l = flat_map g (flat_map f l).
Proof. induction l as [|x l IH]; cbn [flat_map]; [reflexivity|]. rewrite flat_map_app, IH. reflexivity. Qed.
Lemma flat_map_fst {A B C} (f : A -> list C) (l : list (A * B)) : flat_map (fun p => f (fst p)) l = flat_map f (map fst l).
Proof. induction l as [|x l IH]; cbn [flat_map map]; [reflexivity|]. rewrite IH. reflexivity. Qed.
Lemma sent_carried k T s acc done : conf_ok k -> 0 <= T < 2 ^ 62 -> INV k T s acc done ->
  carried_all (map fst (s_sent s)) ++ queued s = map snd acc.
Proof.
  intros KO HT [D Q ID NX SE AC NO BD WI SO]. unfold carried_all, queued. rewrite <- AC, flat_map_app, map_app, !all_payloads. f_equal.
  rewrite flat_flat. rewrite <- (done_carried k T) by assumption. rewrite <- SE. f_equal.
  rewrite <- (flat_map_fst (fun x => x)). reflexivity.
Qed.

Lemma every_run k T l s os : conf_ok k -> 0 <= T < 2 ^ 62 -> events_ok T l -> prun k producer0 l = (s, os) ->
  exists requests copies, length copies = length requests /\ Forall (fun c => (c <= most (k_delivery k))%nat) copies
  /\ s_wire s = flat_map (fun p => repeat (fst p) (snd p)) (combine requests copies)
  /\ carried_all requests ++ queued s = taken l os.
Proof.
  intros KO HT OK R. destruct (INV_run k T l KO ltac:(lia) OK _ _ _ _ _ (INV_start k T KO) R) as (done & IV).
  pose proof (sent_carried _ _ _ _ _ KO HT IV) as C. destruct (I_wire _ _ _ _ _ IV) as (copies & LC & FC & W).
  exists (map fst (s_sent s)), copies. rewrite map_length. split; [assumption|]. split; [assumption|]. split.
  - rewrite W. clear. revert copies. induction (s_sent s) as [|x t IH]; intros [|c cs]; cbn [combine flat_map map fst snd]; try reflexivity. rewrite IH. reflexivity.
  - rewrite C. cbn [app]. apply receipts_taken.
Qed.

Lemma smooth_sent k n a x rs t : a = mkAttempt x (Replied rs) :: t -> fst (send_request k n a) = 1%nat.
Proof. intros ->. unfold send_request. destruct (k_delivery k); reflexivity. Qed.
Lemma smooth_flush k force now a timer x y z s : (exists w rs t, a = mkAttempt w (Replied rs) :: t) -> s_wire s = map fst (s_sent s) ->
  s_wire (flush k force now a timer x y z s) = map fst (s_sent (flush k force now a timer x y z s)).
Proof.
  intros (w & rs & t & E) H. unfold flush. destruct a as [|a0 l0] eqn:EA; [discriminate|]. rewrite <- EA in *. clear EA a0 l0.
  destruct (take_ready k force (wall now) (s_queue s)) as [p q]. destruct (send_request k (length p) a) as [c o] eqn:ES.
  pose proof (smooth_sent k (length p) a w rs t E) as F. rewrite ES in F. cbn [fst] in F. subst c. cbn [s_wire s_sent]. rewrite map_app, H. reflexivity.
Qed.
Lemma smooth_wire k l : forall s s' os, smooth l -> s_wire s = map fst (s_sent s) -> prun k s l = (s', os) -> s_wire s' = map fst (s_sent s').
Proof.
  induction l as [|e l IH]; intros s s' os SM H R; cbn [prun] in R; [injection R as <- _; assumption|].
  destruct (pstep k s e) as [s1 o] eqn:ES. destruct (prun k s1 l) as [s2 os2] eqn:ER. injection R as <- _.
  eapply IH; [|  |exact ER]; [intros e' a' I; apply SM; right; assumption|].
  assert (forall a, attempts_of e = Some a -> exists w rs t, a = mkAttempt w (Replied rs) :: t) as A by (intros a; apply SM; left; reflexivity).
  destruct e as [r t1 t2 t3| | |t|t a|t a|t a]; cbn [pstep attempts_of] in *.
  - unfold push in ES. destruct (s_error s); [injection ES as <- _; assumption|]. destruct (k_queue k <=? zlen (s_queue s)); [injection ES as <- _; assumption|].
    destruct (accumulate k t1 t2 t3 (s_queue s) (s_next s) r) as [[[q f] n] o1]. injection ES as <- _. exact H.
  - injection ES as <- _. exact H.
  - injection ES as <- _. exact H.
  - injection ES as <- _. destruct (0 <? s_new s); exact H.
  - injection ES as <- _. destruct (0 <? s_full s); [|exact H]. apply smooth_flush; [|exact H]. apply A. reflexivity.
  - injection ES as <- _. destruct (0 <? s_flush s); [|exact H]. apply smooth_flush; [|exact H]. apply A. reflexivity.
  - injection ES as <- _. destruct (s_timer s) as [d|]; [|exact H]. destruct (d <=? mono t); [|exact H]. apply smooth_flush; [|exact H]. apply A. reflexivity.
Qed.
Lemma once_in_order k T l s os : conf_ok k -> 0 <= T < 2 ^ 62 -> events_ok T l -> smooth l -> prun k producer0 l = (s, os) ->
  carried_all (s_wire s) ++ queued s = taken l os.
Proof.
  intros KO HT OK SM R. destruct (INV_run k T l KO ltac:(lia) OK _ _ _ _ _ (INV_start k T KO) R) as (done & IV).
  rewrite (smooth_wire k l producer0 _ _ SM eq_refl R), (sent_carried _ _ _ _ _ KO HT IV). apply receipts_taken.
Qed.
Lemma wire_done k T s acc done q b : INV k T s acc done -> In q (s_wire s) -> In b q -> exists m, In m done /\ b = to_raw (mb_batch m).
Proof.
  intros [D Q ID NX SE AC NO BD (cs & LC & FC & W) SO] Hq Hb. rewrite W in Hq. apply in_flat_map in Hq as ([[q1 a] c] & IN & RP). cbn [fst snd] in RP.
  apply repeat_spec in RP as ->. apply in_combine_l in IN.
  assert (In b (flat_map fst (s_sent s))) as IB by (apply in_flat_map; exists (q1, a); auto).
  rewrite SE in IB. apply in_map_iff in IB as (m & <- & IM). exists m. auto.
Qed.
Lemma wire_sizes k T l s os q b : conf_ok k -> 0 <= T < 2 ^ 62 -> events_ok T l -> prun k producer0 l = (s, os) -> In q (s_wire s) -> In b q ->
  zlen (batch_enc raw_codec b) <= k_request k /\ (zlen (batch_enc raw_codec b) <= k_batch k \/ zlen (carried b) = 1).
Proof.
  intros KO HT OK R Hq Hb. destruct (INV_run k T l KO ltac:(lia) OK _ _ _ _ _ (INV_start k T KO) R) as (done & IV).
  destruct (wire_done _ _ _ _ _ _ _ IV Hq Hb) as (m & IM & ->). pose proof (I_done _ _ _ _ _ IV) as D. rewrite Forall_forall in D. specialize (D _ IM).
  rewrite (mb_wire_size k T) by assumption. rewrite (mb_carried k T) by assumption. unfold zlen at 1. rewrite map_length. apply D. apply D.
Qed.
Lemma queue_bounded k T l s os : conf_ok k -> 0 <= T < 2 ^ 62 -> events_ok T l -> prun k producer0 l = (s, os) -> zlen (s_queue s) <= k_queue k.
Proof.
  intros KO HT OK R. destruct (INV_run k T l KO ltac:(lia) OK _ _ _ _ _ (INV_start k T KO) R) as (done & IV). exact (I_bound _ _ _ _ _ IV).
Qed.
Lemma take_all k now q : take_ready k true now q = (q, []).
Proof. induction q as [|b q IH]; cbn [take_ready orb]; [reflexivity|]. rewrite IH. reflexivity. Qed.
Lemma flush_sends k s t a x : 0 < s_flush s -> s_queue (fst (pstep k s (TakeFlush t (a :: x)))) = [].
Proof.
  intros H. cbn [pstep fst]. replace (0 <? s_flush s) with true by lia. unfold flush. rewrite take_all.
  destruct (send_request k (length (s_queue s)) (a :: x)). reflexivity.
Qed.

(** ** Nothing is left behind *)
Definition TIMED (k : pconf) (s : pstate) (future : list reading) : Prop :=
  exists old new, map mb_time (s_queue s) = map wall (old ++ new) /\ zlen new <= s_new s
  /\ Forall (fun c => Forall (later_than c) future) (old ++ new)
  /\ match s_timer s with None => old = [] | Some d => Forall (fun c => mono c + k_linger k <= d) old end.

Lemma take_ready_old k force now q : forall n, (forall b, In b (firstn n q) -> k_linger k <= elapsed b now) -> forall x y, take_ready k force now q = (x, y) ->
  exists m, y = skipn m q /\ (Nat.min n (length q) <= m)%nat.
Proof.
  induction q as [|b q IH]; intros n H x y; cbn [take_ready].
  { intros [= <- <-]. exists n. split; [destruct n; reflexivity|]. cbn. lia. }
  destruct n as [|n].
  { intros E. destruct (force || mb_full k b || (k_linger k <=? elapsed b now)); [|injection E as <- <-; exists O; split; [reflexivity|cbn; lia]].
    destruct (take_ready k force now q) as [x1 y1] eqn:ER. injection E as <- <-. destruct (IH O ltac:(intros ? []) _ _ eq_refl) as (m & -> & _). exists (S m). split; [reflexivity|cbn; lia]. }
  assert (k_linger k <= elapsed b now) as L by (apply H; left; reflexivity).
  replace (k_linger k <=? elapsed b now) with true by lia. rewrite orb_true_r.
  destruct (take_ready k force now q) as [x1 y1] eqn:ER. intros [= <- <-].
  destruct (IH n (fun b' I => H b' (or_intror I)) _ _ eq_refl) as (m & -> & M). exists (S m). split; [reflexivity|]. cbn [length]. lia.
Qed.
Lemma skipn_drop {A} m : forall (old new : list A), (length old <= m)%nat -> skipn m (old ++ new) = skipn (m - length old) new.
Proof. intros old new H. rewrite skipn_app. rewrite skipn_all2 by assumption. reflexivity. Qed.
Lemma Forall_skipn {A} (P : A -> Prop) n l : Forall P l -> Forall P (skipn n l).
Proof. intros H. rewrite <- (firstn_skipn n l) in H. apply Forall_app in H. apply H. Qed.
Lemma zlen_skipn {A} n (l : list A) : zlen (skipn n l) <= zlen l.
Proof. unfold zlen. rewrite skipn_length. lia. Qed.

Lemma TIMED_flush k force now a timer x y z s fut : a <> [] -> TIMED k s (now :: fut) -> x = 0 ->
  (force = true /\ timer = None \/ timer = s_timer s \/ timer = None /\ exists d, s_timer s = Some d /\ d <= mono now) ->
  TIMED k (flush k force now a timer x y z s) fut.
Proof.
  intros NE (old & new & TM & LN & FU & TI) -> C. unfold flush. destruct a as [|a0 l0] eqn:EA; [congruence|]. rewrite <- EA. clear EA a0 l0 NE.
  destruct (take_ready k force (wall now) (s_queue s)) as [ready rest] eqn:E. destruct (send_request k (length ready) a) as [c o].
  unfold TIMED. cbn [s_queue s_new s_timer].
  assert (Forall (fun c => Forall (later_than c) fut) (old ++ new)) as FU'.
  { eapply Forall_impl; [|exact FU]. intros c0 Hc. inversion Hc; assumption. }
  destruct C as [(-> & ->)|[->|(-> & d & ED & LE)]].
  - rewrite take_all in E. injection E as <- <-. exists [], []. repeat split; [|constructor]. pose proof (zlen_nonneg new). cbn. lia.
  - destruct (take_ready_old k force _ _ O ltac:(intros ? []) _ _ E) as (m & -> & _).
    exists (skipn m old), (skipn (m - length old) new). rewrite <- skipn_app, <- skipn_map, TM, skipn_map.
    split; [reflexivity|]. split; [pose proof (zlen_skipn (m - length old) new); lia|]. split; [apply Forall_skipn; assumption|].
    destruct (s_timer s); [apply Forall_skipn; assumption|]. subst old. apply skipn_nil.
  - rewrite ED in TI. assert (length (s_queue s) = length (old ++ new)) as LQ by (rewrite <- (map_length mb_time), TM, map_length; reflexivity).
    destruct (take_ready_old k force (wall now) (s_queue s) (length old)) with (x := ready) (y := rest) as (m & -> & M); [|assumption|].
    + intros b IN. apply (in_map mb_time) in IN. rewrite <- firstn_map, TM, firstn_map, firstn_app, Nat.sub_diag, firstn_all, app_nil_r in IN.
      apply in_map_iff in IN as (c0 & EC & IN). rewrite Forall_forall in TI. specialize (TI _ IN).
      rewrite Forall_forall in FU. specialize (FU c0 ltac:(apply in_or_app; auto)). inversion FU as [|? ? (_ & L2) _]; subst. unfold elapsed. lia.
    + exists [], (skipn (m - length old) new). rewrite LQ, app_length in M. rewrite <- skipn_map, TM, skipn_map, skipn_drop by lia. cbn [app].
      split; [reflexivity|]. split; [pose proof (zlen_skipn (m - length old) new); lia|]. split; [|reflexivity].
      apply Forall_skipn. apply Forall_app in FU'. apply FU'.
Qed.
Lemma TIMED_less k s a fut : TIMED k s (a ++ fut) -> TIMED k s fut.
Proof.
  intros (old & new & TM & LN & FU & TI). exists old, new. repeat split; try assumption. eapply Forall_impl; [|exact FU].
  intros c Hc. apply Forall_app in Hc. apply Hc.
Qed.
Lemma sorted_app {A} (R : A -> A -> Prop) l : forall l', StronglySorted R (l ++ l') -> StronglySorted R l'.
Proof. induction l as [|x l IH]; intros l' H; [assumption|]. inversion H. auto. Qed.

Lemma TIMED_run k T l : conf_ok k -> 0 <= T -> events_ok T l -> steady l -> forall s acc done s' os,
  INV k T s acc done -> TIMED k s (flat_map readings_of l) -> prun k s l = (s', os) -> TIMED k s' [].
Proof.
  intros KO HT. induction l as [|e l IH]; intros OK SD s acc done s' os IV TS R; cbn [prun] in R.
  { injection R as <- _. exact TS. }
  destruct (pstep k s e) as [s1 o] eqn:ES. destruct (prun k s1 l) as [s2 os2] eqn:ER. injection R as <- _.
  assert (exists acc1 done1, INV k T s1 acc1 done1) as (acc1 & done1 & IV1).
  { assert (events_ok T [e]) as OK1 by (inversion OK; constructor; [assumption|constructor]).
    assert (prun k s [e] = (s1, [o])) as R1 by (cbn [prun]; rewrite ES; reflexivity).
    destruct (INV_run k T [e] KO HT OK1 _ _ _ _ _ IV R1) as (d & I). eauto. }
  inversion OK as [|e0 l0 (CL & PO) OK']; subst e0 l0.
  unfold steady in SD. cbn [flat_map] in SD, TS. pose proof (sorted_app _ _ _ SD) as SD'.
  refine (IH OK' SD' _ _ _ _ _ IV1 _ ER). clear IH ER IV1.
  destruct e as [r t1 t2 t3| | |t|t a|t a|t a]; cbn [pstep attempts_of readings_of app] in *.
  - destruct (push k t1 t2 t3 s r) as [s0 o0] eqn:EP. injection ES as <- _. unfold push in EP.
    destruct (s_error s); [injection EP as <- _; exact (TIMED_less _ _ [t1; t2; t3] _ TS)|].
    destruct (k_queue k <=? zlen (s_queue s)); [injection EP as <- _; exact (TIMED_less _ _ [t1; t2; t3] _ TS)|].
    destruct (accumulate k t1 t2 t3 (s_queue s) (s_next s) r) as [[[q f] n] o1] eqn:E. injection EP as <- _.
    inversion CL as [|? ? (_ & C1) CL1]; subst. inversion CL1 as [|? ? (_ & C2) CL2]; subst. inversion CL2 as [|? ? (_ & C3) _]; subst.
    destruct (accumulate_pushes k T t1 t2 t3 _ _ _ _ _ _ _ KO (I_queue _ _ _ _ _ IV) PO C1 C2 C3 E) as ((_ & N01 & _ & LN & (pre & new1 & EQ & L1 & TP) & _) & LB).
    destruct (TIMED_less _ _ [t1; t2; t3] _ TS) as (old & new & TM & LNW & FU & TI).
    unfold TIMED. cbn [s_queue s_new s_timer]. destruct N01 as [->| ->].
    + assert (new1 = []) as -> by (destruct new1; [reflexivity|rewrite zlen_cons in L1; pose proof (zlen_nonneg new1); lia]).
      exists old, new. rewrite EQ, app_nil_r, TP. repeat split; try assumption. lia.
    + destruct (LB eq_refl) as (pre' & b & EQ' & TB). assert (exists b1, new1 = [b1]) as (b1 & ->).
      { destruct new1 as [|b1 [|b2 t]]; [cbn in L1; lia|eauto|]. rewrite !zlen_cons in L1. pose proof (zlen_nonneg t). lia. }
      rewrite EQ in EQ'. apply app_inj_tail in EQ' as (_ & ->).
      exists old, (new ++ [t2]). rewrite EQ, map_app, TP, TM, app_assoc. cbn [map]. rewrite TB. split; [symmetry; apply map_app|].
      split; [rewrite zlen_app; cbn; lia|]. split; [|assumption]. apply Forall_app. split; [assumption|]. constructor; [|constructor].
      inversion SD as [|? ? SD1 _]; subst. inversion SD1 as [|? ? _ F2]; subst. inversion F2; assumption.
  - injection ES as <- _. exact TS.
  - injection ES as <- _. exact TS.
  - injection ES as <- _. destruct (0 <? s_new s) eqn:EN; [|exact (TIMED_less _ _ [t] _ TS)].
    destruct TS as (old & new & TM & LN & FU & TI). exists (old ++ new), []. cbn [s_queue s_new s_timer]. rewrite app_nil_r. split; [assumption|]. split; [cbn; lia|].
    split; [eapply Forall_impl; [|exact FU]; intros c0 Hc; inversion Hc; assumption|].
    eapply Forall_impl; [|exact FU]. intros c0 Hc. inversion Hc as [|? ? (M & _) _]; subst. lia.
  - injection ES as <- _. destruct (0 <? s_full s); [|exact (TIMED_less _ _ [t] _ TS)]. destruct a as [|a0 a]; [exact (TIMED_less _ _ [t] _ TS)|]. apply TIMED_flush; auto; discriminate.
  - injection ES as <- _. destruct (0 <? s_flush s); [|exact (TIMED_less _ _ [t] _ TS)]. destruct a as [|a0 a]; [exact (TIMED_less _ _ [t] _ TS)|]. apply TIMED_flush; auto; discriminate.
  - injection ES as <- _. destruct (s_timer s) as [d|] eqn:ED; [|exact (TIMED_less _ _ [t] _ TS)].
    destruct (d <=? mono t) eqn:EL; [|exact (TIMED_less _ _ [t] _ TS)]. destruct a as [|a0 a]; [exact (TIMED_less _ _ [t] _ TS)|]. apply TIMED_flush; auto; [discriminate|]. right. right. split; [reflexivity|]. exists d. split; [assumption|lia].
Qed.
Lemma none_left k T l s os : conf_ok k -> 0 <= T < 2 ^ 62 -> events_ok T l -> steady l -> prun k producer0 l = (s, os) -> idle s ->
  s_queue s = [].
Proof.
  intros KO HT OK SD R (N & F & FL & TI).
  assert (TIMED k producer0 (flat_map readings_of l)) as T0 by (exists [], []; repeat split; [cbn; lia|constructor]).
  destruct (TIMED_run k T l KO ltac:(lia) OK SD _ _ _ _ _ (INV_start k T KO) T0 R) as (old & new & TM & LN & FU & TT).
  rewrite TI in TT. subst old. rewrite N in LN. destruct new; [|rewrite zlen_cons in LN; pose proof (zlen_nonneg new); lia].
  destruct (s_queue s); [reflexivity|discriminate].
Qed.

(** * C38, C39 *)
Lemma map_inj {A B} (f : A -> B) l a b : NoDup (map f l) -> In a l -> In b l -> f a = f b -> a = b.
Proof.
  induction l as [|x l IH]; cbn [map]; [intros _ []|]. intros N. inversion N as [|? ? NI N']; subst. intros [->|I1] [->|I2] E; try reflexivity.
  - destruct NI. rewrite E. apply in_map. assumption.
  - destruct NI. rewrite <- E. apply in_map. assumption.
  - apply IH; assumption.
Qed.
Lemma ids_nodup k T s acc done : INV k T s acc done -> NoDup (map mb_id (done ++ s_queue s)).
Proof.
  intros IV. rewrite (I_ids _ _ _ _ _ IV). apply FinFun.Injective_map_NoDup; [intros a b; lia|apply seq_NoDup].
Qed.
Lemma receipt_batch k T s l os done id off x : INV k T s (receipts l os) done -> receipt l os id off x ->
  exists b, In b (done ++ s_queue s) /\ mb_id b = id /\ 0 <= off /\ nth_error (map payload_of (mb_recs b)) (Z.to_nat off) = Some x.
Proof.
  intros IV RC. apply receipts_in in RC. rewrite <- (I_acc _ _ _ _ _ IV) in RC. apply in_flat_map in RC as (b & IB & IT).
  unfold tickets_of in IT. apply tickets_in in IT as (E & L & N). exists b. rewrite Z.sub_0_r in N. auto.
Qed.
Lemma find_note_in id l x : find_note id l = Some x -> In (id, x) l.
Proof.
  induction l as [|[i y] l IH]; cbn [find_note]; [discriminate|]. destruct (i =? id) eqn:E; [intros [= <-]|intros H; right; auto].
  left. f_equal. lia.
Qed.
Lemma find_note_some id l : In id (map fst l) -> find_note id l <> None.
Proof.
  induction l as [|[i y] l IH]; cbn [map find_note fst]; [intros []|]. intros H. destruct (i =? id) eqn:E; [discriminate|].
  destruct H as [->|H]; [lia|auto].
Qed.
Lemma wait_found s id off o : wait_for s id off = Some (Some o) -> In (id, Answer (o - off) NoError) (s_notes s).
Proof.
  unfold wait_for. destruct (find_note id (s_notes s)) as [[base e|]|] eqn:E; [|discriminate|discriminate].
  destruct e; try discriminate. intros [= <-]. replace (base + off - off) with base by lia. apply find_note_in. assumption.
Qed.
Lemma told_of_success k T l s os n id off x o : conf_ok k -> 0 <= T < 2 ^ 62 -> events_ok T l -> k_delivery k = AtLeastOnce n ->
  prun k producer0 l = (s, os) -> receipt l os id off x -> wait_for s id off = Some (Some o) ->
  exists q a z rs i b, In (q, a) (s_sent s) /\ In (mkAttempt z (Replied rs)) a
    /\ nth_error q i = Some (to_raw (mb_batch b)) /\ nth_error rs i = Some (o - off, NoError)
    /\ mb_ok k T b /\ 0 <= off /\ nth_error (map payload_of (mb_recs b)) (Z.to_nat off) = Some x.
Proof.
  intros KO HT OK DE R RC W. destruct (INV_run k T l KO ltac:(lia) OK _ _ _ _ _ (INV_start k T KO) R) as (done & IV). cbn [app] in IV.
  destruct (receipt_batch _ _ _ _ _ _ _ _ _ IV RC) as (b & IB & EI & LO & NX).
  destruct (I_source _ _ _ _ _ IV ltac:(unfold at_least; rewrite DE; exact I) _ _ (wait_found _ _ _ _ W)) as (q & a & rs & z & i & b' & S1 & S2 & S3 & S4 & S5 & S6).
  assert (b' = b) as ->.
  { apply (map_inj mb_id (done ++ s_queue s)); [eapply ids_nodup; exact IV|apply in_or_app; left; assumption|assumption|congruence]. }
  exists q, a, z, rs, i, b. pose proof (I_done _ _ _ _ _ IV) as D. rewrite Forall_forall in D. auto 10.
Qed.
Lemma success_only k T l s os n id off x o : conf_ok k -> 0 <= T < 2 ^ 62 -> events_ok T l -> k_delivery k = AtLeastOnce n ->
  prun k producer0 l = (s, os) -> receipt l os id off x -> wait_for s id off = Some (Some o) ->
  exists q a z rs i b, In (q, a) (s_sent s) /\ In (mkAttempt z (Replied rs)) a
    /\ nth_error q i = Some b /\ nth_error rs i = Some (o - off, NoError) /\ 0 <= off /\ nth_error (carried b) (Z.to_nat off) = Some x.
Proof.
  intros KO HT OK DE R RC W. destruct (told_of_success _ _ _ _ _ _ _ _ _ _ KO HT OK DE R RC W) as (q & a & z & rs & i & b & S1 & S2 & S3 & S4 & S5 & S6 & S7).
  exists q, a, z, rs, i, (to_raw (mb_batch b)). rewrite (mb_carried k T) by assumption. auto 10.
Qed.
Lemma always_told k T l s os id off x : conf_ok k -> 0 <= T < 2 ^ 62 -> events_ok T l -> prun k producer0 l = (s, os) -> receipt l os id off x ->
  (exists b, In b (s_queue s) /\ mb_id b = id) \/ wait_for s id off <> None.
Proof.
  intros KO HT OK R RC. destruct (INV_run k T l KO ltac:(lia) OK _ _ _ _ _ (INV_start k T KO) R) as (done & IV). cbn [app] in IV.
  destruct (receipt_batch _ _ _ _ _ _ _ _ _ IV RC) as (b & IB & EI & _). apply in_app_or in IB as [IB|IB]; [right|left; eauto].
  assert (In id (map fst (s_notes s))) as IN by (rewrite (I_notes _ _ _ _ _ IV), <- EI; apply in_map; assumption).
  apply find_note_some in IN. unfold wait_for. destruct (find_note id (s_notes s)) as [[base []|]|]; congruence.
Qed.

Lemma uncommitted_begins c r L b o : config_ok c -> inv c r L -> In b L -> contains b o -> get_log_start r <= o < get_leo r ->
  begins_with (read_partition_slice r o (zlen (renc b)) ReadUncommitted) (renc b).
Proof.
  intros CO I0 IN CT Ho0. destruct (read_uncommitted c r L o (zlen (renc b)) CO I0 Ho0) as (pre0 & b0 & post0 & rest0 & E0 & CT0 & RD & _).
  destruct (inv_stores _ _ _ I0) as ((_ & CH) & _).
  assert (b0 = b) as ->. { eapply (chain_unique _ _ _ _ _ _ CH); [rewrite E0; apply in_or_app; right; left; reflexivity|exact IN|exact CT0|exact CT]. }
  rewrite RD. exists (get_log_start r), (get_hw r), (get_leo r), (ztake (zlen (renc b) - zlen (renc b)) (flat_map renc post0)).
  cbn [flat_map]. rewrite ztake_app_ge by lia. reflexivity.
Qed.
Lemma mb_records_len k T b : conf_ok k -> mb_ok k T b -> records_len (to_raw (mb_batch b)) = zlen (mb_recs b).
Proof.
  intros KO H. pose proof (mb_count _ _ _ KO H). unfold records_len, to_raw, mb_batch. cbn [b_hdr h_last_delta set_compression with_attr].
  rewrite (mb_delta k T) by assumption. replace (zlen (mb_recs b) - 1 <? 0) with false by lia. lia.
Qed.
Lemma nth_consumer base p ts l : forall i n r, nth_error l n = Some r -> In (mkCrec (base + i + Z.of_nat n) p ts r) (consumer_records_from base p ts i l).
Proof.
  induction l as [|x l IH]; intros i n r; [destruct n; discriminate|]. cbn [consumer_records_from]. destruct n as [|n]; cbn [nth_error].
  - intros [= ->]. left. f_equal. lia.
  - intros H. right. specialize (IH (i + 1) n r H). replace (base + i + Z.of_nat (S n)) with (base + (i + 1) + Z.of_nat n) by lia. assumption.
Qed.
Lemma stored_found c k T now ld b ld' res off x : config_ok c -> conf_ok k -> 0 <= T < 2 ^ 62 -> mb_ok k T b ->
  reached c (l_store ld) -> room (l_store ld) [to_raw (mb_batch b)] ->
  produce_partition c now keep_all keep_all (Some ld) [to_raw (mb_batch b)] = (ld', res) -> p_code res = NoError ->
  0 <= off -> nth_error (map payload_of (mb_recs b)) (Z.to_nat off) = Some x ->
  exists ld1, ld' = Some ld1 /\ finds (l_store ld1) (p_base res + off) x.
Proof.
  intros CO KO HT B RE RM H E LO NX. pose proof (mb_count _ _ _ KO B) as CNT. pose proof (mb_records_len _ _ _ KO B) as RL.
  assert (total [to_raw (mb_batch b)] = zlen (mb_recs b)) as TT by (cbn [total]; lia).
  assert (Forall raw_batch_ok [to_raw (mb_batch b)]) as OK by (constructor; [apply to_raw_ok; eapply mb_batch_ok; eassumption|constructor]).
  destruct (produce_ok c now keep_all keep_all ld _ _ _ _ _ eq_refl ltac:(rewrite TT; lia) eq_refl ltac:(rewrite TT; lia) H E) as (ld1 & -> & W & BA & _).
  exists ld1. split; [reflexivity|]. destruct (append_contiguous _ _ _ _ _ _ CO RE OK RM W) as (_ & LEO & LS & _).
  destruct (reached_inv _ _ CO RE) as (L & s & ls & act & EL & I).
  destruct (write_recordset_at _ _ _ _ _ _ _ _ _ _ CO I OK RM W) as (n & ls' & act' & I' & N & F & _ & -> & _). rewrite firstn_all in F.
  assert (inv c (l_store ld1) (L ++ number (get_leo (l_store ld)) [to_raw (mb_batch b)])) as IV by (exists s, ls', act'; split; [subst L; symmetry; assumption|assumption]).
  set (st := with_base (to_raw (mb_batch b)) (get_leo (l_store ld))).
  rewrite nth_error_map in NX. destruct (nth_error (mb_recs b) (Z.to_nat off)) as [r|] eqn:NR; [|discriminate]. cbn in NX. injection NX as <-.
  assert (0 <= off < zlen (mb_recs b)) as OF.
  { split; [assumption|]. assert (Z.to_nat off < length (mb_recs b))%nat by (apply nth_error_Some; rewrite NR; discriminate). unfold zlen. lia. }
  assert (contains st (p_base res + off)) as CT by (unfold contains, st; rewrite with_base_len, RL, BA; cbn [with_base b_base]; lia).
  destruct (mb_memory _ _ _ KO HT B) as (m & EM & RM'). unfold to_memory in EM.
  destruct (memory_records (b_recs (to_raw (mb_batch b)))) as [rs|er] eqn:EMR; [|discriminate]. cbn [bind] in EM. injection EM as <-. cbn [b_recs] in RM'.
  exists st, (mkBatch (b_base st) (wrap_s 32 (BATCH_HEADER_SIZE + c_size memory_codec rs)) (b_hdr st) 0 rs), (mkCrec (p_base res + off) 0 (h_first_ts (b_hdr st)) r).
  split.
  - apply (uncommitted_begins c _ (L ++ number (get_leo (l_store ld)) [to_raw (mb_batch b)])); [assumption|exact IV|apply in_or_app; right; left; reflexivity|assumption|].
    destruct (inv_stores _ _ _ IV) as ((_ & CH) & _). apply chain_split in CH as (mid & C1 & _). destruct (inv_stores _ _ _ (ex_intro _ s (ex_intro _ ls (ex_intro _ act (conj EL I))))) as ((_ & CH0) & _).
    apply chain_le in CH0. rewrite LEO, LS, BA, TT. lia.
  - split; [assumption|]. split; [unfold to_memory; change (b_recs st) with (b_recs (to_raw (mb_batch b))); rewrite EMR; reflexivity|].
    split; [|split; reflexivity]. unfold into_consumer_records. cbn [b_base b_hdr b_recs]. rewrite RM'.
    pose proof (nth_consumer (b_base st) 0 (h_first_ts (b_hdr st)) _ 0 _ _ NR) as G. rewrite Z2Nat.id in G by lia.
    replace (b_base st + 0 + off) with (p_base res + off) in G by (rewrite BA; cbn; lia). exact G.
Qed.
Lemma stored_at_offset c iso k T l s os n id off x o : config_ok c -> conf_ok k -> 0 <= T < 2 ^ 62 -> events_ok T l -> k_delivery k = AtLeastOnce n ->
  prun k producer0 l = (s, os) ->
  (forall q a z rs, In (q, a) (s_sent s) -> In (mkAttempt z (Replied rs)) a -> exists ts, answered c iso keep_all keep_all q rs ts) ->
  receipt l os id off x -> wait_for s id off = Some (Some o) ->
  exists q a z rs ts i p ld, In (q, a) (s_sent s) /\ In (mkAttempt z (Replied rs)) a /\ answered c iso keep_all keep_all q rs ts
    /\ In (i, p, Some ld) (handle_request c iso keep_all keep_all ts) /\ finds (l_store ld) o x.
Proof.
  intros CO KO HT OK DE R AN RC W. destruct (told_of_success _ _ _ _ _ _ _ _ _ _ KO HT OK DE R RC W) as (q & a & z & rs & i & b & S1 & S2 & S3 & S4 & S5 & S6 & S7).
  destruct (AN _ _ _ _ S1 S2) as (ts & A). pose proof A as (A1 & A2 & A3).
  exists q, a, z, rs, ts.
  pose proof (f_equal (fun l => nth_error l i) A1) as N1. cbv beta in N1. rewrite !nth_error_map, S3 in N1. cbn [option_map] in N1.
  destruct (nth_error ts i) as [t|] eqn:NT; [|discriminate]. cbn [option_map] in N1. injection N1 as N1.
  rewrite A2 in S4. unfold handle_request in S4. rewrite !map_map, nth_error_map, NT in S4. cbn [option_map] in S4. rewrite N1 in S4.
  rewrite Forall_forall in A3. specialize (A3 t (nth_error_In _ _ NT)). rewrite N1 in A3.
  destruct (produce_partition c (t_now t) keep_all keep_all (t_leader t) [to_raw (mb_batch b)]) as [ld' res] eqn:PP. cbn [fst snd] in S4. injection S4 as S4 S4c.
  destruct (wait_kept _ _ _ _ S4c) as (E1 & Eb). rewrite Eb in S4. destruct (t_leader t) as [ld|] eqn:TL; [|cbn in PP; injection PP as <- <-; discriminate].
  destruct (A3 _ eq_refl) as (RE & RM).
  destruct (stored_found c k T _ _ _ _ _ _ _ CO KO HT S5 RE RM PP E1 S6 S7) as (ld1 & -> & FD).
  exists (t_index t), (wait_for_ack iso res (t_first t) (t_later t)), ld1. split; [assumption|]. split; [assumption|]. split; [assumption|]. split.
  - unfold handle_request. rewrite map_map. apply in_map_iff. exists t. rewrite N1, TL, PP. split; [reflexivity|eapply nth_error_In; exact NT].
  - rewrite S4 in FD. replace (o - off + off) with o in FD by lia. exact FD.
Qed.

(** The flush of all partitions *)
Lemma flush_all_same fails l : forall errs, flush_all fails errs (combine l l) = true <-> forall p, In p l -> fails p = false /\ errs p = false.
Proof.
  induction l as [|p l IH]; intros errs; cbn [combine flush_all]; [split; [intros _ ? []|reflexivity]|].
  rewrite Z.eqb_refl. cbn [andb]. destruct (errs p || fails p) eqn:E.
  - split; [discriminate|]. intros H. destruct (H p (or_introl eq_refl)) as (A & B). rewrite A, B in E. discriminate.
  - apply orb_false_iff in E as (E1 & E2). rewrite IH. split.
    + intros H x [<-|I]; [auto|]. destruct (H x I) as (A & B). apply orb_false_iff in B. tauto.
    + intros H x I. destruct (H x (or_intror I)) as (A & B). rewrite A, B. split; [reflexivity|]. destruct (x =? p) eqn:EX; [|reflexivity].
      apply Z.eqb_eq in EX as ->. rewrite E2. reflexivity.
Qed.

(** * C40 *)
Lemma mask_low v : 0 <= v < 128 -> Z.land v 0xffffff80 = 0.
Proof.
  intros H. rewrite <- (Z.mod_small v 128) by assumption. change 128 with (2 ^ 7). rewrite <- Z.land_ones by lia. rewrite <- Z.land_assoc.
  change (Z.land (Z.ones 7) 0xffffff80) with 0. apply Z.land_0_r.
Qed.
Lemma vsize_mono fuel : forall v w a m n, 0 <= v <= w -> w < 2 ^ 32 -> vsize_loop fuel v a = Some m -> vsize_loop fuel w a = Some n -> m <= n.
Proof.
  induction fuel as [|f IH]; intros v w a m n H W; cbn [vsize_loop]; [discriminate|].
  destruct (Z.land w 0xffffff80 =? 0) eqn:E.
  - apply Z.eqb_eq in E. pose proof (mask_zero_small w ltac:(lia) E). rewrite mask_low by lia. intros [= <-] [= <-]. lia.
  - destruct (Z.land v 0xffffff80 =? 0).
    + intros [= <-] H2. apply vsize_ge in H2. lia.
    + intros H1 H2. rewrite !Z.shiftr_div_pow2 in * by lia. refine (IH _ _ _ _ _ _ _ H1 H2); change (2 ^ 7) with 128; change (2 ^ 32) with 4294967296 in *; lia.
Qed.
Lemma zigzag_nonneg n : 0 <= n < 2 ^ 31 -> zigzag n = 2 * n.
Proof.
  intros H. unfold zigzag. rewrite Z.shiftr_div_pow2, Z.shiftl_mul_pow2 by lia. rewrite (Z.div_small n) by lia. rewrite Z.lxor_0_r.
  rewrite wrap_s_id; [lia|lia|]. unfold in_s. change (2 ^ (64 - 1)) with (2 ^ 63). lia.
Qed.
Lemma vsize_total n : in_s 32 n -> exists m, vsize_loop varint_fuel (zigzag n) 1 = Some m /\ varint_size n = m.
Proof.
  intros H. unfold varint_size. pose proof (varint_encode_some n H) as E. pose proof (zigzag_small_range n H) as R.
  destruct (venc_loop_decodes _ _ _ 0 0 E) as (m & _ & _ & _ & _ & _ & Hsz); [lia| |cbn; lia|].
  - change (2 ^ 0) with 1. change (2 ^ 32) with 4294967296 in R. change (2^63) with 9223372036854775808. lia.
  - rewrite Hsz. cbn [option_get]. eauto.
Qed.
Lemma varint_size_mono v w : 0 <= v <= w -> w < 2 ^ 31 -> varint_size v <= varint_size w.
Proof.
  intros H W. destruct (vsize_total v) as (m & E1 & ->); [unfold in_s; change (2 ^ (32 - 1)) with (2 ^ 31); lia|].
  destruct (vsize_total w) as (n & E2 & ->); [unfold in_s; change (2 ^ (32 - 1)) with (2 ^ 31); lia|].
  rewrite zigzag_nonneg in E1, E2 by lia. refine (vsize_mono _ _ _ _ _ _ _ _ E1 E2); change (2 ^ 31) with 2147483648 in *; change (2 ^ 32) with 4294967296; lia.
Qed.
Lemma varint_size_pos n : in_s 32 n -> 1 <= varint_size n.
Proof. intros H. destruct (vsize_total n H) as (m & E & ->). apply vsize_ge in E. assumption. Qed.

Lemma body_size_parts r : c_size body_tuple_codec (rec_tuple r)
  = 1 + (varint_size (r_ts r) + (varint_size (r_off r) + (c_size (option_codec record_data_codec) (r_key r) + (c_size record_data_codec (r_val r) + varint_size (r_headers r))))).
Proof. reflexivity. Qed.
Lemma smallest_size r r' : rec_ok r' -> payload_of r' = payload_of r -> c_size body_tuple_codec (rec_tuple r') < 2 ^ 31 ->
  c_size rec_codec (stamp 0 0 r) <= c_size rec_codec r'.
Proof.
  intros OK P LT. rewrite !rec_size.
  assert (0 <= c_size body_tuple_codec (rec_tuple (stamp 0 0 r)) <= c_size body_tuple_codec (rec_tuple r')) as B.
  { assert (rec_ok (stamp 0 0 r) \/ True) by auto. rewrite !body_size_parts. cbn [stamp r_ts r_off r_key r_val r_headers].
    injection P as P1 P2 P3 P4. rewrite <- P2, <- P3, <- P4. destruct OK as (_ & O2 & O3 & _).
    pose proof (varint_size_pos _ O2). pose proof (varint_size_pos _ O3). change (varint_size 0) with 1.
    pose proof (varint_size_nonneg (r_headers r')).
    assert (0 <= c_size (option_codec record_data_codec) (r_key r')) by (destruct (r_key r'); cbn [option_codec c_size bool_codec record_data_codec]; [pose proof (varint_size_nonneg (zlen b)); pose proof (zlen_nonneg b)|]; lia).
    assert (0 <= c_size record_data_codec (r_val r')) by (cbn [c_size record_data_codec]; pose proof (varint_size_nonneg (zlen (r_val r'))); pose proof (zlen_nonneg (r_val r')); lia).
    lia. }
  pose proof (varint_size_mono _ _ B LT). lia.
Qed.
Lemma mem_size_in l r : Forall rec_ok l -> In r l -> 4 + c_size rec_codec r <= c_size memory_codec l.
Proof.
  induction l as [|x l IH] using rev_ind; [intros _ []|]. intros H I. apply Forall_app in H as (H & Hx). inversion Hx as [|? ? Hx' _]; subst.
  rewrite mem_size_snoc. pose proof (mem_size_nonneg _ H) as M. pose proof (zlen_nonneg l). apply in_app_or in I as [I|[->|[]]]; [|lia].
  specialize (IH H I). assert (0 <= c_size rec_codec x); [|lia]. rewrite rec_size, body_size by (apply rec_body_ok; assumption).
  pose proof (body_pos x). pose proof (varint_size_nonneg (zlen (rec_body x))). lia.
Qed.
Lemma accepted_fits k T l s os r t1 t2 t3 id off : conf_ok k -> 0 <= T < 2 ^ 62 -> events_ok T (l ++ [Push r t1 t2 t3]) -> prun k producer0 l = (s, os) ->
  snd (push k t1 t2 t3 s r) = Accepted id off -> smallest r <= k_request k.
Proof.
  intros KO HT OK R A. apply Forall_app in OK as (OK & OKP). inversion OKP as [|? ? (CL & PO) _]; subst. cbn [readings_of] in CL.
  destruct (INV_run k T l KO ltac:(lia) OK _ _ _ _ _ (INV_start k T KO) R) as (done & IV).
  inversion CL as [|? ? (_ & C1) CL1]; subst. inversion CL1 as [|? ? (_ & C2) CL2]; subst. inversion CL2 as [|? ? (_ & C3) _]; subst.
  destruct (push k t1 t2 t3 s r) as [s' o] eqn:EP. cbn [snd] in A. subst o.
  pose proof (INV_push k T t1 t2 t3 _ _ _ _ _ _ KO ltac:(lia) PO C1 C2 C3 IV EP) as [D Q _ _ _ AC _ _ _ _].
  assert (In (id, off, payload_of r) (flat_map tickets_of (done ++ s_queue s'))) as IT by (rewrite AC; apply in_or_app; right; left; reflexivity).
  apply in_flat_map in IT as (b & IB & IT). apply tickets_in in IT as (_ & _ & NX). apply nth_error_In in NX. apply in_map_iff in NX as (r' & EP' & IR).
  assert (mb_ok k T b) as ((RO & _ & S & _ & L) & NE) by (apply in_app_or in IB as [IB|IB]; [rewrite Forall_forall in D|rewrite Forall_forall in Q]; auto).
  destruct (L NE) as (L1 & _). unfold mb_raw_size in L1. rewrite S in L1. change BATCH_FILE_HEADER_SIZE with 57 in L1.
  pose proof (mem_size_in _ _ RO IR) as M. rewrite Forall_forall in RO. specialize (RO _ IR).
  assert (c_size body_tuple_codec (rec_tuple r') < 2 ^ 31) as LT by (rewrite body_size by (apply rec_body_ok; assumption); apply RO).
  pose proof (smallest_size r r' RO EP' LT). unfold smallest. lia.
Qed.
Lemma stamp_twice o t o' t' r : stamp o t (stamp o' t' r) = stamp o t r.
Proof. reflexivity. Qed.
Lemma first_fits k now b r size : mb_recs b = [] -> mb_raw_size b + size <= k_request k -> c_size rec_codec (stamp 0 (elapsed b now) r) = size ->
  exists b', mb_push k now b r = (b', Added 0).
Proof.
  intros E L S. unfold mb_push. cbv zeta. rewrite E. replace (zlen (@nil rec)) with 0 by reflexivity. rewrite S.
  replace (k_request k <? mb_raw_size b + size) with false by lia. replace (0 =? 0) with true by reflexivity. eexists. reflexivity.
Qed.
Lemma later_fits k now b r size : mb_raw_size b + size <= k_request k -> c_size rec_codec (stamp (zlen (mb_recs b)) (elapsed b now) r) = size ->
  exists b' x, mb_push k now b r = (b', x) /\ (x = Added (zlen (mb_recs b)) \/ x = NotAdded (stamp (zlen (mb_recs b)) (elapsed b now) r)).
Proof.
  intros L S. unfold mb_push. cbv zeta. rewrite S. replace (k_request k <? mb_raw_size b + size) with false by lia.
  destruct (zlen (mb_recs b) =? 0); [eexists; eexists; split; [reflexivity|left; reflexivity]|].
  destruct (k_batch k <? mb_raw_size b + size); eexists; eexists; (split; [reflexivity|]); [right|left]; reflexivity.
Qed.
Lemma new_fits k made now q id r size : 61 + size <= k_request k -> c_size rec_codec (stamp 0 (Z.max 0 (now - made)) r) = size ->
  exists f b, create_batch 2 k made now q id r = (q ++ [b], f, 1, Accepted id 0).
Proof.
  intros L S. destruct (first_fits k now (new_batch id made) r size eq_refl L S) as (b & E). cbn [create_batch]. rewrite E. eexists. exists b. reflexivity.
Qed.
Lemma accumulate_fits k t1 t2 t3 q id r size : 61 + size <= k_request k -> c_size rec_codec (stamp 0 (Z.max 0 (wall t3 - wall t2)) r) = size ->
  (forall b before size1, rev q = b :: before -> c_size rec_codec (stamp (zlen (mb_recs b)) (elapsed b (wall t1)) r) = size1 -> mb_raw_size b + size1 <= k_request k) ->
  exists q' f n i off, accumulate k t1 t2 t3 q id r = (q', f, n, Accepted i off).
Proof.
  intros AL SZ OP. unfold accumulate. destruct (rev q) as [|b before].
  - destruct (new_fits k (wall t2) (wall t3) q id r size AL SZ) as (f & b & ->). do 5 eexists. reflexivity.
  - specialize (OP b before _ eq_refl eq_refl).
    destruct (later_fits k (wall t1) b r _ OP eq_refl) as (b' & x & -> & [->| ->]); [do 5 eexists; reflexivity|].
    destruct (new_fits k (wall t2) (wall t3) (rev before ++ [b']) id (stamp (zlen (mb_recs b)) (elapsed b (wall t1)) r) size AL) as (f & b1 & ->).
    + rewrite stamp_twice. exact SZ.
    + do 5 eexists. reflexivity.
Qed.
Lemma fits_accepted k s r t1 t2 t3 : s_error s = false -> zlen (s_queue s) < k_queue k -> 61 + c_size rec_codec (stamp 0 (Z.max 0 (wall t3 - wall t2)) r) <= k_request k ->
  (forall b before, rev (s_queue s) = b :: before ->
     mb_raw_size b + c_size rec_codec (stamp (zlen (mb_recs b)) (elapsed b (wall t1)) r) <= k_request k) ->
  exists id off, snd (push k t1 t2 t3 s r) = Accepted id off.
Proof.
  intros SE QF AL OP.
  destruct (accumulate_fits k t1 t2 t3 (s_queue s) (s_next s) r _ AL eq_refl) as (q' & f & n & i & off & E).
  - intros b before size1 H <-. exact (OP b before H).
  - unfold push. rewrite SE. replace (k_queue k <=? zlen (s_queue s)) with false by lia. rewrite E. exists i, off. reflexivity.
Qed.

(** * C41 *)
Lemma keyed_partition hash i c c' x : 0 < i_count i -> exists p, 0 <= p < i_count i
  /\ partition_of hash i c (Some x) = (c, Ok p) /\ partition_of hash i c' (Some x) = (c', Ok p).
Proof.
  intros H. exists (hash x mod i_count i). unfold partition_of. replace (i_count i =? 0) with false by lia. split; [apply Z.mod_pos_bound; assumption|]. auto.
Qed.
Lemma chosen_exists hash i c x : 0 < i_count i -> Forall (fun p => 0 <= p < i_count i) (i_avail i) ->
  exists p, snd (partition_of hash i c x) = Ok p /\ 0 <= p < i_count i /\ (x = None -> i_avail i <> [] -> In p (i_avail i)).
Proof.
  intros H A. destruct x as [x|]; unfold partition_of; replace (i_count i =? 0) with false by lia; cbn [snd].
  - eexists. split; [reflexivity|]. split; [apply Z.mod_pos_bound; assumption|discriminate].
  - destruct (i_avail i) as [|p l] eqn:E.
    + eexists. split; [reflexivity|]. split; [apply Z.mod_pos_bound; assumption|congruence].
    + assert (In (nth (Z.to_nat (c mod zlen (p :: l))) (p :: l) 0) (p :: l)) as I.
      { apply nth_In. assert (0 < zlen (p :: l)) by (rewrite zlen_cons; pose proof (zlen_nonneg l); lia).
        pose proof (Z.mod_pos_bound c (zlen (p :: l)) ltac:(lia)). unfold zlen in *. lia. }
      eexists. split; [reflexivity|]. rewrite Forall_forall in A. split; [apply A; assumption|auto].
Qed.
Lemma keyless_run hash i keys : forall c, keyless keys (partitions_of hash i c keys)
  = partitions_of hash i c (repeat None (length (filter (fun x : option bytes => match x with None => true | Some _ => false end) keys))).
Proof.
  induction keys as [|x keys IH]; intros c; [reflexivity|]. cbn [partitions_of]. destruct (partition_of hash i c x) as [c' p] eqn:E.
  unfold keyless in *. cbn [combine filter fst]. destruct x as [x|].
  - unfold partition_of in E. injection E as <- _. apply IH.
  - cbn [map snd length repeat partitions_of]. rewrite E. f_equal. apply IH.
Qed.
Definition hits (k c m : Z) (n : nat) : Z := zlen (filter (fun j => (c + Z.of_nat j) mod k =? m) (seq 0 n)).
Lemma hits_count k c m n : 0 < k -> 0 <= c -> 0 <= m < k -> hits k c m n = (c + Z.of_nat n + k - 1 - m) / k - (c + k - 1 - m) / k.
Proof.
  intros K C M. unfold hits. induction n as [|n IH]; [cbn; rewrite Z.add_0_r; lia|].
  rewrite seq_S, filter_app, zlen_app, IH. cbn [plus filter]. clear IH.
  set (a := c + Z.of_nat n) in *. replace (c + Z.of_nat (S n) + k - 1 - m) with (a + k - 1 - m + 1) by lia.
  assert ((if a mod k =? m then 1 else 0) = (a + k - 1 - m + 1) / k - (a + k - 1 - m) / k) as E.
  { pose proof (Z.div_mod a k ltac:(lia)). pose proof (Z.mod_pos_bound a k K). set (u := a / k) in *. set (v := a mod k) in *.
    destruct (v =? m) eqn:EV.
    - assert ((a + k - 1 - m + 1) / k = u + 1) as -> by (symmetry; apply Z.div_unique with 0; lia).
      assert ((a + k - 1 - m) / k = u) as -> by (symmetry; apply Z.div_unique with (k - 1); lia). lia.
    - destruct (Z.lt_ge_cases v m).
      + assert ((a + k - 1 - m + 1) / k = u) as -> by (symmetry; apply Z.div_unique with (v + k - m); lia).
        assert ((a + k - 1 - m) / k = u) as -> by (symmetry; apply Z.div_unique with (v + k - m - 1); lia). lia.
      + assert ((a + k - 1 - m + 1) / k = u + 1) as -> by (symmetry; apply Z.div_unique with (v - m); lia).
        assert ((a + k - 1 - m) / k = u + 1) as -> by (symmetry; apply Z.div_unique with (v - m - 1); lia). lia. }
  destruct (a mod k =? m); unfold zlen; cbn [length]; lia.
Qed.
Lemma hits_fair k c m n : 0 < k -> 0 <= c -> 0 <= m < k -> Z.of_nat n / k <= hits k c m n <= (Z.of_nat n + k - 1) / k.
Proof.
  intros K C M. rewrite hits_count by assumption. set (a := c + k - 1 - m). replace (c + Z.of_nat n + k - 1 - m) with (a + Z.of_nat n) by (unfold a; lia).
  set (N := Z.of_nat n). pose proof (Z.div_mod a k ltac:(lia)). pose proof (Z.mod_pos_bound a k K). pose proof (Z.div_mod (a + N) k ltac:(lia)). pose proof (Z.mod_pos_bound (a + N) k K).
  pose proof (Z.div_mod N k ltac:(lia)). pose proof (Z.mod_pos_bound N k K). pose proof (Z.div_mod (N + k - 1) k ltac:(lia)). pose proof (Z.mod_pos_bound (N + k - 1) k K). nia.
Qed.
Lemma round_robin hash i n : forall c, i_avail i <> [] -> 0 <= c < 2 ^ 32 -> (c + Z.of_nat n <= 2 ^ 32 \/ 2 ^ 32 mod zlen (i_avail i) = 0) ->
  partitions_of hash i c (repeat None n) = map (fun j => Ok (nth (Z.to_nat ((c + Z.of_nat j) mod zlen (i_avail i))) (i_avail i) 0)) (seq 0 n).
Proof.
  induction n as [|n IH]; intros c NE C H; [reflexivity|]. cbn [repeat partitions_of]. unfold partition_of.
  assert (0 < zlen (i_avail i)) as K by (destruct (i_avail i); [congruence|rewrite zlen_cons; pose proof (zlen_nonneg l); lia]).
  assert (match i_avail i with [] => if i_count i =? 0 then Err Panic else Ok (c mod i_count i) | _ => Ok (nth (Z.to_nat (c mod zlen (i_avail i))) (i_avail i) 0) end
          = Ok (nth (Z.to_nat (c mod zlen (i_avail i))) (i_avail i) 0)) as E by (destruct (i_avail i); [congruence|reflexivity]).
  assert (match i_avail i with [] => if i_count i =? 0 then Err Panic else Ok (c mod i_count i) | z :: l => Ok (nth (Z.to_nat (c mod zlen (z :: l))) (z :: l) 0) end
          = Ok (nth (Z.to_nat (c mod zlen (i_avail i))) (i_avail i) 0)) as -> by (destruct (i_avail i); [congruence|reflexivity]).
  cbn [seq map]. rewrite Z.add_0_r. f_equal. rewrite <- seq_shift, map_map. destruct (Z.eq_dec (c + 1) (2 ^ 32)) as [W|W].
  - assert (wrap_u 32 (c + 1) = 0) as -> by (rewrite W; reflexivity). destruct n as [|n]; [reflexivity|].
    destruct H as [H|H]; [lia|]. rewrite IH by (auto; lia). apply map_ext. intros j. do 3 f_equal.
    replace (c + Z.of_nat (S j)) with (2 ^ 32 + (0 + Z.of_nat j)) by lia. rewrite <- (Z.add_mod_idemp_l (2 ^ 32)), H by lia. reflexivity.
  - rewrite wrap_u_id by (unfold in_u; lia). rewrite IH; [|assumption|lia|destruct H; [left; lia|right; assumption]].
    apply map_ext. intros j. do 3 f_equal. f_equal. lia.
Qed.
Lemma nth_unique {A} (l : list A) d n m : NoDup l -> (n < length l)%nat -> (m < length l)%nat -> nth n l d = nth m l d -> n = m.
Proof. intros N. apply NoDup_nth. assumption. Qed.
Lemma fair hash i c keys p : NoDup (i_avail i) -> In p (i_avail i) -> 0 <= c < 2 ^ 32 ->
  let n := zlen (keyless keys (partitions_of hash i c keys)) in let k := zlen (i_avail i) in
  (c + n <= 2 ^ 32 \/ 2 ^ 32 mod k = 0) ->
  n / k <= count_of p (keyless keys (partitions_of hash i c keys)) <= (n + k - 1) / k.
Proof.
  intros ND IP C. cbv zeta. rewrite keyless_run. set (n := length (filter _ keys)). intros H.
  assert (i_avail i <> []) as NE by (intros E; rewrite E in IP; contradiction).
  assert (zlen (partitions_of hash i c (repeat None n)) = Z.of_nat n) as LN.
  { unfold zlen. f_equal. clear. revert c. induction n as [|n IH]; intros c; cbn [repeat partitions_of]; [reflexivity|]. destruct (partition_of hash i c None). cbn [length]. rewrite IH. reflexivity. }
  rewrite LN in *. rewrite round_robin by assumption.
  assert (0 < zlen (i_avail i)) as K by (destruct (i_avail i); [congruence|rewrite zlen_cons; pose proof (zlen_nonneg l); lia]).
  destruct (In_nth _ _ 0 IP) as (m & LM & EM).
  assert (count_of p (map (fun j => Ok (nth (Z.to_nat ((c + Z.of_nat j) mod zlen (i_avail i))) (i_avail i) 0)) (seq 0 n)) = hits (zlen (i_avail i)) c (Z.of_nat m) n) as ->.
  { unfold count_of, hits. generalize (seq 0 n). intros js. induction js as [|j js IH]; [reflexivity|]. cbn [map filter].
    pose proof (Z.mod_pos_bound (c + Z.of_nat j) (zlen (i_avail i)) K) as B. set (v := (c + Z.of_nat j) mod zlen (i_avail i)) in *. clearbody v.
    assert ((nth (Z.to_nat (v)) (i_avail i) 0 =? p) = (v =? Z.of_nat m)) as ->.
    { destruct (v =? Z.of_nat m) eqn:E.
      - apply Z.eqb_eq in E. rewrite E, Nat2Z.id, EM. apply Z.eqb_refl.
      - apply Z.eqb_neq. intros X. rewrite <- EM in X. apply nth_unique in X; [|assumption|unfold zlen in B; lia|assumption]. lia. }
    destruct (v =? Z.of_nat m); [rewrite !zlen_cons, IH; reflexivity|exact IH]. }
  apply hits_fair; [assumption|lia|unfold zlen; lia].
Qed.
Lemma available_partitions n online i : 0 <= n ->
  i_count (update_available (Some n) online i) = n /\ NoDup (i_avail (update_available (Some n) online i))
  /\ forall p, In p (i_avail (update_available (Some n) online i)) <-> 0 <= p < n /\ online p = true.
Proof.
  intros H. cbn [update_available i_count i_avail]. split; [reflexivity|]. split.
  - apply NoDup_filter. apply FinFun.Injective_map_NoDup; [intros a b; lia|apply seq_NoDup].
  - intros p. rewrite filter_In, in_map_iff. split.
    + intros ((j & <- & I) & O). apply in_seq in I. split; [lia|assumption].
    + intros (B & O). split; [|assumption]. exists (Z.to_nat p). split; [lia|]. apply in_seq. lia.
Qed.

(** * Witnesses *)
Definition small : rec := mkRec 0 0 0 None [7; 8; 9] 0.
Definition big : rec := mkRec 0 0 0 (Some [1]) [1; 2; 3; 4; 5; 6; 7; 8; 9; 10; 11; 12; 13; 14; 15; 16; 17; 18; 19; 20] 0.
Definition at_ (m : Z) : reading := mkNow m (1000 + m).
Definition ok_reply (l : list (Z * pcode)) : attempt := mkAttempt true (Replied l).
Definition pk (request batch : Z) (d : delivery) : pconf := mkPconf request batch 10 100 d.
Lemma pk_ok request batch d : request < 2 ^ 31 - 4 -> conf_ok (pk request batch d).
Proof. intros H. unfold conf_ok, pk. cbn. lia. Qed.
Ltac events_tac := repeat (first [apply Forall_nil | apply Forall_cons]); unfold event_ok; cbn [readings_of]; (split; [repeat (first [apply Forall_nil | apply Forall_cons]); unfold clock_ok; cbn; lia|]);
  try exact I; unfold pushable, payload_ok; cbn; repeat split; try (vm_compute; congruence); repeat (first [apply Forall_nil | apply Forall_cons]); try (vm_compute; split; congruence); try exact I.
Ltac attempts_tac := let e := fresh in let a := fresh in let H := fresh in intros e a H; cbn [In] in H;
  repeat (destruct H as [<-|H]; [cbn [attempts_of]; try discriminate; intros [= <-]; try (eexists; eexists; eexists; reflexivity); try discriminate|]); destruct H.

(** Three records, a full batch, a linger timer, a flush *)
Definition demo_run : list pevent :=
  [Push small (at_ 0) (at_ 1) (at_ 1); TakeNew (at_ 2); Push small (at_ 3) (at_ 3) (at_ 3); Push big (at_ 4) (at_ 5) (at_ 5);
   TakeFull (at_ 6) [ok_reply [(0, NoError); (2, NoError)]]; TakeNew (at_ 7); Push small (at_ 8) (at_ 8) (at_ 8);
   Linger (at_ 200) [ok_reply [(3, NoError)]]; AskFlush; TakeFull (at_ 201) [ok_reply []]; TakeNew (at_ 202);
   Push small (at_ 210) (at_ 211) (at_ 211); TakeFlush (at_ 212) [ok_reply [(4, NoError)]]; Linger (at_ 400) [ok_reply []]; TakeNew (at_ 401); Linger (at_ 600) [ok_reply []]].
Definition demo_k := pk 120 90 (AtLeastOnce 3).
Lemma demo_ok : events_ok 1000 demo_run.
Proof. unfold events_ok, demo_run. events_tac. Qed.
Lemma demo_smooth : smooth demo_run.
Proof. unfold smooth, demo_run. attempts_tac. Qed.
Lemma demo_steady : steady demo_run.
Proof. unfold steady, demo_run. cbn. repeat (constructor; [|repeat constructor; unfold later_than, at_; cbn; lia]). constructor. Qed.

(** The wall clock is set back by 40 ms while a batch waits. *)
Lemma clock_refuted : exists k T l s os, conf_ok k /\ events_ok T l /\ smooth l /\ StronglySorted (fun a b => mono a <= mono b) (flat_map readings_of l)
  /\ prun k producer0 l = (s, os) /\ idle s /\ taken l os = [payload_of small] /\ carried_all (s_wire s) = [].
Proof.
  exists demo_k, 1000, [Push small (mkNow 0 1050) (mkNow 0 1050) (mkNow 0 1050); TakeNew (mkNow 0 1050); Linger (mkNow 100 1110) [ok_reply []]].
  eexists. eexists. split; [apply pk_ok; reflexivity|]. split; [unfold events_ok; events_tac|]. split; [unfold smooth; attempts_tac|].
  split; [cbn; repeat (constructor; [|repeat constructor; cbn; lia]); constructor|]. split; [vm_compute; reflexivity|]. split; [repeat split|]. split; vm_compute; reflexivity.
Qed.
(** Without a connection to the leader everything accepted stays queued. *)
Lemma no_flush k s e s' o : pstep k s e = (s', o) -> (forall a, attempts_of e = Some a -> a = []) ->
  s_wire s' = s_wire s /\ s_notes s' = s_notes s /\ s_sent s' = s_sent s /\ (s_error s = false -> s_error s' = false).
Proof.
  intros E A. destruct e as [r t1 t2 t3| | |t|t l|t l|t l]; cbn [pstep attempts_of] in *.
  - unfold push in E. destruct (s_error s) eqn:SE; [injection E as <- <-; repeat split; congruence|].
    destruct (_ <=? _); [injection E as <- <-; repeat split; congruence|].
    destruct (accumulate k t1 t2 t3 (s_queue s) (s_next s) r) as [[[q f] n] oc]. injection E as <- <-. repeat split; assumption.
  - injection E as <- <-. repeat split; auto.
  - injection E as <- <-. repeat split; auto.
  - injection E as <- <-. destruct (0 <? s_new s); repeat split; auto.
  - rewrite (A l eq_refl) in E. injection E as <- <-. destruct (0 <? s_full s); repeat split; auto.
  - rewrite (A l eq_refl) in E. injection E as <- <-. destruct (0 <? s_flush s); repeat split; auto.
  - rewrite (A l eq_refl) in E. injection E as <- <-. destruct (s_timer s) as [d|]; [destruct (d <=? mono t)|]; repeat split; auto.
Qed.
Lemma no_flush_run k l : forall s s' os, unconnected l -> prun k s l = (s', os) ->
  s_wire s' = s_wire s /\ s_notes s' = s_notes s /\ s_sent s' = s_sent s /\ (s_error s = false -> s_error s' = false).
Proof.
  induction l as [|e l IH]; intros s s' os U R; cbn [prun] in R; [injection R as <- <-; repeat split; auto|].
  destruct (pstep k s e) as [s1 o] eqn:P. destruct (prun k s1 l) as [s2 os2] eqn:R2. injection R as <- <-.
  destruct (no_flush k s e s1 o P) as (A & B & C & D); [intros a H; apply (U e a); [left; reflexivity|exact H]|].
  destruct (IH s1 s2 os2) as (A' & B' & C' & D'); [intros e' a I; apply U; right; exact I|exact R2|].
  rewrite A', B', C'. repeat split; auto.
Qed.
Lemma waits_for_connection k T l s os : conf_ok k -> 0 <= T < 2 ^ 62 -> events_ok T l -> unconnected l -> prun k producer0 l = (s, os) ->
  queued s = taken l os /\ s_wire s = [] /\ s_notes s = [] /\ s_error s = false.
Proof.
  intros KO HT OK U R. destruct (no_flush_run k l producer0 s os U R) as (A & B & C & D).
  destruct (INV_run k T l KO ltac:(lia) OK _ _ _ _ _ (INV_start k T KO) R) as (done & IV).
  pose proof (sent_carried _ _ _ _ _ KO HT IV) as Q. rewrite C in Q. cbn [producer0 s_sent map] in Q.
  split; [|repeat split; [exact A|exact B|apply D; reflexivity]].
  rewrite <- receipts_taken. exact Q.
Qed.
(** Two batches in one request that is larger than [max_request_size]. *)
Lemma request_refuted : exists k T l s os q, conf_ok k /\ events_ok T l /\ smooth l /\ prun k producer0 l = (s, os)
  /\ In q (s_wire s) /\ k_request k < fold_right Z.add 0 (map (fun b => zlen (batch_enc raw_codec b)) q).
Proof.
  exists (pk 100 70 (AtLeastOnce 1)), 1000, [Push small (at_ 0) (at_ 0) (at_ 0); Push small (at_ 1) (at_ 1) (at_ 1); AskFlush; TakeFlush (at_ 2) [ok_reply [(0, NoError); (1, NoError)]]].
  eexists. eexists. eexists. split; [apply pk_ok; reflexivity|]. split; [unfold events_ok; events_tac|]. split; [unfold smooth; attempts_tac|].
  split; [vm_compute; reflexivity|]. split; [left; reflexivity|]. vm_compute. reflexivity.
Qed.
(** The first response is lost, the request is sent again. *)
Lemma retry_refuted : exists k T l s os, conf_ok k /\ events_ok T l /\ prun k producer0 l = (s, os) /\ idle s
  /\ taken l os = [payload_of small] /\ carried_all (s_wire s) = [payload_of small; payload_of small].
Proof.
  exists demo_k, 1000, [Push small (at_ 0) (at_ 0) (at_ 0); TakeNew (at_ 0); Linger (at_ 100) [mkAttempt true Retryable; ok_reply [(0, NoError)]]].
  eexists. eexists. split; [apply pk_ok; reflexivity|]. split; [unfold events_ok; events_tac|].
  split; [vm_compute; reflexivity|]. split; [repeat split|]. split; vm_compute; reflexivity.
Qed.

(** A SmartModule of the producer drops the first of two records: the second is
    said to be at an offset behind the end of the log. *)
Definition drop_first (l : list (batch bytes)) : option (list (batch bytes)) := Some [to_raw (batch_from [small])].
Definition two_sent : list pevent :=
  [Push big (at_ 0) (at_ 0) (at_ 0); Push small (at_ 1) (at_ 1) (at_ 1); TakeNew (at_ 2); Linger (at_ 200) [ok_reply [(0, NoError)]]].
Definition two_k := pk 1000 900 (AtLeastOnce 3).
Definition two_turn : turn := 
  let b := hd (to_raw (batch_from [])) (hd [] (s_wire (fst (prun two_k producer0 two_sent)))) in
  mkTurn 0 0 [b] (Some (mkLeader (fresh demo_c 0) 1 (Some None))) None [].
Lemma smartmodule_refuted : exists c pre k T l s os q rs ts id off o ld, config_ok c /\ conf_ok k /\ events_ok T l /\ prun k producer0 l = (s, os)
  /\ s_sent s = [(q, [mkAttempt true (Replied rs)])] /\ answered c ReadUncommitted pre keep_all q rs ts
  /\ receipt l os id off (payload_of small) /\ wait_for s id off = Some (Some o)
  /\ map snd (handle_request c ReadUncommitted pre keep_all ts) = [Some ld] /\ get_leo (l_store ld) <= o.
Proof.
  exists demo_c, drop_first, two_k, 1000, two_sent. eexists. eexists. eexists. eexists. exists [two_turn], 0, 1, 1. eexists.
  split; [apply demo_c_ok|]. split; [apply pk_ok; reflexivity|]. split; [unfold events_ok, two_sent; events_tac|].
  split; [vm_compute; reflexivity|]. split; [reflexivity|].
  split; [|split; [exists 1%nat; do 4 eexists; split; [reflexivity|split; reflexivity]|split; [reflexivity|split; [vm_compute; reflexivity|vm_compute; congruence]]]].
  split; [vm_compute; reflexivity|]. split; [vm_compute; reflexivity|]. constructor; [|constructor]. intros ld [= <-].
  split; [apply reached_fresh|]. room_tac.
Qed.
(** With at-most-once delivery a refused batch is reported as stored. *)
Lemma at_most_once_refuted : exists k T l s os id off x o, conf_ok k /\ events_ok T l /\ k_delivery k = AtMostOnce /\ prun k producer0 l = (s, os)
  /\ (forall q a, In (q, a) (s_sent s) -> a = [mkAttempt true (Replied [(0, MessageTooLarge)])])
  /\ receipt l os id off x /\ wait_for s id off = Some (Some o).
Proof.
  exists (pk 1000 900 AtMostOnce), 1000, [Push small (at_ 0) (at_ 0) (at_ 0); TakeNew (at_ 0); Linger (at_ 100) [ok_reply [(0, MessageTooLarge)]]].
  eexists. eexists. exists 0, 0, (payload_of small), 0. split; [apply pk_ok; reflexivity|]. split; [unfold events_ok; events_tac|]. split; [reflexivity|].
  split; [vm_compute; reflexivity|]. split; [intros q a [[= _ <-]|[]]; reflexivity|].
  split; [exists O; do 4 eexists; split; [reflexivity|split; reflexivity]|reflexivity].
Qed.
(** The two maps are iterated in different orders: the error of partition 1 is
    looked for before partition 1 is flushed. *)
Lemma flush_all_refuted : exists fails ps qs, Permutation.Permutation ps qs /\ NoDup ps /\ (exists p, In p ps /\ fails p = true)
  /\ flush_all fails (fun _ => false) (combine ps qs) = true.
Proof.
  exists (fun p => p =? 1), [0; 1], [1; 0]. split; [apply Permutation.perm_swap|].
  split; [repeat constructor; cbn; intuition lia|]. split; [exists 1; cbn; auto|reflexivity].
Qed.
(** A small record after a large one that is still queued *)
Lemma too_large_refuted : exists k T l s os t1 t2 t3, conf_ok k /\ events_ok T (l ++ [Push small t1 t2 t3]) /\ steady (l ++ [Push small t1 t2 t3])
  /\ prun k producer0 l = (s, os) /\ smallest small < smallest big /\ smallest big <= k_request k
  /\ taken l os = [payload_of big] /\ s_error s = false /\ zlen (s_queue s) < k_queue k
  /\ snd (push k t1 t2 t3 s small) = RecordTooLarge /\ exists i o, snd (push k t1 t2 t3 producer0 small) = Accepted i o.
Proof.
  exists (pk 97 80 (AtLeastOnce 3)), 1000, [Push big (at_ 0) (at_ 0) (at_ 0)]. eexists. eexists. exists (at_ 1), (at_ 1), (at_ 1).
  split; [apply pk_ok; reflexivity|]. split; [unfold events_ok; cbn [app]; events_tac|].
  split; [unfold steady; cbn; repeat (constructor; [|repeat constructor; unfold later_than, at_; cbn; lia]); constructor|].
  split; [vm_compute; reflexivity|]. split; [vm_compute; reflexivity|]. split; [vm_compute; congruence|]. split; [vm_compute; reflexivity|].
  split; [reflexivity|]. split; [reflexivity|]. split; [vm_compute; reflexivity|]. eexists. eexists. vm_compute. reflexivity.
Qed.
(** Three records without key to three partitions, while the counter wraps *)
Lemma wrap_refuted : exists i c, 0 <= c < 2 ^ 32 /\ i_avail i = [0; 1; 2] /\ forall hash,
  count_of 0 (partitions_of hash i c [None; None; None]) = 2 /\ count_of 2 (partitions_of hash i c [None; None; None]) = 0.
Proof. exists (mkInfo 3 [0; 1; 2]), (2 ^ 32 - 1). split; [lia|]. split; [reflexivity|]. intros hash. vm_compute. auto. Qed.

(** A request that is never answered: the next push says so. *)
Lemma never_answered l : forall n, (forall x rs, In x l -> a_answer x <> Replied rs) -> snd (with_retry n l) = None.
Proof.
  induction l as [|[z a] l IH]; intros n H; [reflexivity|]. cbn [with_retry a_reached a_answer].
  destruct a as [rs| |]; [destruct (H _ rs (or_introl eq_refl)); reflexivity| |reflexivity].
  destruct n as [|n]; [reflexivity|]. specialize (IH n (fun x rs I => H x rs (or_intror I))). destruct (with_retry n l). exact IH.
Qed.
Lemma failed_flush_shows k n force t a timer x y z s : k_delivery k = AtLeastOnce n -> (forall x rs, In x a -> a_answer x <> Replied rs) ->
  flush k force t a timer x y z s <> s -> s_error (flush k force t a timer x y z s) = true.
Proof.
  intros D H NS. unfold flush in *. destruct a as [|a0 l0] eqn:E; [congruence|]. rewrite <- E in *. clear E a0 l0.
  destruct (take_ready k force (wall t) (s_queue s)) as [p q]. unfold send_request. rewrite D. pose proof (never_answered a n H) as N.
  destruct (with_retry n a) as [c o]. cbn [snd] in N. subst o. reflexivity.
Qed.
Lemma failure_shown k n s e a r t1 t2 t3 : k_delivery k = AtLeastOnce n -> attempts_of e = Some a -> (forall x rs, In x a -> a_answer x <> Replied rs) ->
  fst (pstep k s e) <> s -> snd (push k t1 t2 t3 (fst (pstep k s e)) r) = LastError.
Proof.
  intros D A H N. assert (s_error (fst (pstep k s e)) = true) as E.
  { destruct e as [| | |t|t l|t l|t l]; cbn [attempts_of] in A; try discriminate; injection A as ->; cbn [pstep fst] in *.
    - destruct (0 <? s_full s); [|congruence]. eapply failed_flush_shows; eassumption.
    - destruct (0 <? s_flush s); [|congruence]. eapply failed_flush_shows; eassumption.
    - destruct (s_timer s) as [d|]; [|congruence]. destruct (d <=? mono t); [|congruence]. eapply failed_flush_shows; eassumption. }
  unfold push. rewrite E. reflexivity.
Qed.
Lemma crowded_out k s r t1 t2 t3 b before : s_error s = false -> zlen (s_queue s) < k_queue k -> rev (s_queue s) = b :: before ->
  k_request k < mb_raw_size b + c_size rec_codec (stamp (zlen (mb_recs b)) (elapsed b (wall t1)) r) ->
  snd (push k t1 t2 t3 s r) = RecordTooLarge.
Proof.
  intros SE QF EQ GT. assert (exists b' z, mb_push k (wall t1) b r = (b', TooLarge z)) as (b' & z & E).
  { unfold mb_push. cbv zeta. remember (c_size rec_codec (stamp (zlen (mb_recs b)) (elapsed b (wall t1)) r)) as size.
    replace (k_request k <? mb_raw_size b + size) with true by lia. eexists. eexists. reflexivity. }
  unfold push. rewrite SE. replace (k_queue k <=? zlen (s_queue s)) with false by lia. unfold accumulate. rewrite EQ, E. reflexivity.
Qed.

(** * Full batches are sent without waiting *)
Definition front_full (k : pconf) (q : list mbatch) : Prop :=
  match rev q with [] => True | _ :: before => Forall (fun b => mb_full k b = true) before end.
Definition dueq (k : pconf) (q : list mbatch) : Prop := (exists b, In b q /\ k_batch k <= mb_raw_size b) \/ 1 < zlen q.
Lemma push_kinds k now b r b' x : mb_push k now b r = (b', x) ->
  match x with Added _ => True | NotAdded _ => mb_full k b' = true /\ 0 < zlen (mb_recs b) | TooLarge _ => mb_raw_size b' = mb_raw_size b end.
Proof.
  unfold mb_push. cbv zeta. remember (c_size rec_codec (stamp (zlen (mb_recs b)) (elapsed b now) r)) as z eqn:Ez. clear Ez.
  destruct (_ <? _); [intros [= <- <-]; reflexivity|]. destruct (zlen (mb_recs b) =? 0) eqn:E0; [intros [= <- <-]; exact Logic.I|].
  destruct (_ <? _); intros [= <- <-]; [|exact Logic.I]. split; [reflexivity|]. pose proof (zlen_nonneg (mb_recs b)). lia.
Qed.
Lemma rev_snoc {A} (l : list A) x : rev (l ++ [x]) = x :: rev l.
Proof. apply rev_app_distr. Qed.
Lemma big_full k b : k_batch k <= mb_raw_size b -> mb_full k b = true.
Proof. intros B. unfold mb_full. replace (k_batch k <=? mb_raw_size b) with true by (symmetry; apply Z.leb_le; exact B). apply orb_true_r. Qed.
Lemma create_full k made now q id r q' f n o : create_batch 2 k made now q id r = (q', f, n, o) ->
  Forall (fun b => mb_full k b = true) q -> front_full k q' /\ (q = [] -> dueq k q' -> 0 < f) /\ 0 <= f.
Proof.
  intros E F. cbn [create_batch] in E. destruct (mb_push k now (new_batch id made) r) as [b x] eqn:P. apply push_kinds in P.
  destruct x as [off|r'|z].
  - injection E as <- <- <- <-. unfold front_full. rewrite rev_snoc. split; [apply Forall_rev; assumption|]. split; [|destruct (mb_full k b); lia].
    intros -> [(c & [->|[]] & C)|L]; [|cbn in L; lia]. rewrite (big_full _ _ C). lia.
  - destruct P as (_ & P). cbn in P. lia.
  - injection E as <- <- <- <-. split; [|split; [|lia]].
    + unfold front_full. apply Forall_rev in F. destruct (rev q); [exact Logic.I|]. inversion F; assumption.
    + intros -> [(c & [] & _)|L]. cbn in L. lia.
Qed.
Lemma accumulate_full k t1 t2 t3 q id r q' f n o : accumulate k t1 t2 t3 q id r = (q', f, n, o) ->
  front_full k q -> front_full k q' /\ (dueq k q' -> dueq k q \/ 0 < f) /\ 0 <= f.
Proof.
  unfold accumulate. intros E F. destruct (rev q) as [|b before] eqn:R.
  - assert (q = []) as -> by (apply (f_equal (@rev mbatch)) in R; rewrite rev_involutive in R; exact R).
    destruct (create_full _ _ _ _ _ _ _ _ _ _ E (Forall_nil _)) as (A & B & C). split; [exact A|]. split; [|exact C]. intros D. right. apply B; [reflexivity|exact D].
  - assert (q = rev before ++ [b]) as EQ by (apply (f_equal (@rev mbatch)) in R; rewrite rev_involutive in R; exact R).
    unfold front_full in F. rewrite R in F.
    assert (S : forall b' , (forall c, c = b' -> k_batch k <= mb_raw_size c -> dueq k q) -> dueq k (rev before ++ [b']) -> dueq k q).
    { intros b' H [(c & I & C)|L].
      - apply in_app_or in I as [I|[->|[]]]; [|eapply H; [reflexivity|exact C]]. left. exists c. split; [rewrite EQ; apply in_or_app; left; exact I|exact C].
      - right. rewrite EQ. rewrite !zlen_app in *. exact L. }
    destruct (mb_push k (wall t1) b r) as [b' x] eqn:P. apply push_kinds in P. destruct x as [off|r'|z].
    + injection E as <- <- <- <-. unfold front_full. rewrite rev_snoc, rev_involutive. split; [exact F|]. split; [|destruct (mb_full k b'); lia].
      intros D. destruct (mb_full k b') eqn:FB; [right; lia|]. left. apply (S b'); [|exact D]. intros c -> C. rewrite (big_full _ _ C) in FB. discriminate.
    + destruct (create_batch 2 k (wall t2) (wall t3) (rev before ++ [b']) id r') as [[[q2 f2] n2] o2] eqn:CB. injection E as <- <- <- <-.
      destruct P as (P & _). destruct (create_full _ _ _ _ _ _ _ _ _ _ CB) as (A & B & C).
      * apply Forall_app. split; [apply Forall_rev; exact F|]. constructor; [exact P|constructor].
      * rewrite P. split; [exact A|]. split; [intros _; right; lia|lia].
    + injection E as <- <- <- <-. unfold front_full. rewrite rev_snoc, rev_involutive. split; [exact F|]. split; [|lia]. intros D. left. apply (S b'); [|exact D].
      intros c -> C. rewrite P in C. left. exists b. split; [rewrite EQ; apply in_or_app; right; left; reflexivity|exact C].
Qed.
Lemma ready_full k force now q : forall x y, take_ready k force now q = (x, y) -> front_full k q -> y = [] \/ exists b, y = [b] /\ mb_full k b = false.
Proof.
  induction q as [|b q IH]; intros x y E F; cbn [take_ready] in E; [injection E as <- <-; left; reflexivity|].
  destruct (force || mb_full k b || (k_linger k <=? elapsed b now)) eqn:C.
  - destruct (take_ready k force now q) as [x' y'] eqn:T. injection E as <- <-. apply (IH _ _ eq_refl).
    unfold front_full in *. cbn [rev] in F. destruct (rev q) as [|z l]; [exact Logic.I|]. cbn [app] in F. apply Forall_app in F. apply F.
  - injection E as <- <-. right. exists b. apply orb_false_iff in C as (C & _). apply orb_false_iff in C as (_ & C). split; [|exact C].
    destruct (rev q) as [|z l] eqn:R; [apply (f_equal (@rev mbatch)) in R; rewrite rev_involutive in R; rewrite R; reflexivity|].
    exfalso. unfold front_full in F. cbn [rev] in F. rewrite R in F. cbn [app] in F. apply Forall_app in F as (_ & F). inversion F; congruence.
Qed.
Lemma small_rest k y : y = [] \/ (exists b, y = [b] /\ mb_full k b = false) -> front_full k y /\ ~ dueq k y.
Proof.
  intros [->|(b & -> & B)]; (split; [cbn; auto|]); intros [(c & I & C)|L]; try (cbn in L; lia); [destruct I|]. destruct I as [->|[]]. rewrite (big_full _ _ C) in B. discriminate.
Qed.
Lemma flush_full k force now a x timer dn df dfl s : front_full k (s_queue s) ->
  let s' := flush k force now (a :: x) timer dn df dfl s in front_full k (s_queue s') /\ ~ dueq k (s_queue s').
Proof.
  intros F. cbv zeta. unfold flush. destruct (take_ready k force (wall now) (s_queue s)) as [ready rest] eqn:T.
  destruct (send_request k (length ready) (a :: x)) as [copies y]. cbn [s_queue]. apply small_rest. exact (ready_full _ _ _ _ _ _ T F).
Qed.
Definition J (k : pconf) (s : pstate) : Prop := front_full k (s_queue s) /\ 0 <= s_full s /\ (dueq k (s_queue s) -> 0 < s_full s).
Lemma J_step k s e s' o : J k s -> pstep k s e = (s', o) -> J k s'.
Proof.
  intros (F & P & N) E.
  assert (FL : forall force t l timer dn df dfl, 0 <= s_full s - df -> J k (flush k force t l timer dn df dfl s)).
  { intros force t l timer dn df dfl LE. destruct l as [|a x]; [split; [exact F|split; assumption]|]. destruct (flush_full k force t a x timer dn df dfl s F) as (F1 & F2).
    split; [exact F1|]. split; [|intros S; contradiction]. unfold flush. destruct (take_ready _ _ _ _). destruct (send_request _ _ _). exact LE. }
  destruct e as [r t1 t2 t3| | |t|t l|t l|t l]; cbn [pstep] in E.
  - unfold push in E. destruct (s_error s); [injection E as <- <-; split; [exact F|split; assumption]|].
    destruct (_ <=? _); [injection E as <- <-; split; [exact F|split; assumption]|].
    destruct (accumulate k t1 t2 t3 (s_queue s) (s_next s) r) as [[[q f] n] oc] eqn:AC. injection E as <- <-.
    destruct (accumulate_full _ _ _ _ _ _ _ _ _ _ _ AC F) as (A1 & A2 & A3).
    split; [exact A1|]. cbn [s_full s_queue]. split; [lia|]. intros S. destruct (A2 S) as [S'|L]; [specialize (N S')|]; lia.
  - injection E as <- <-. split; [exact F|split; assumption].
  - injection E as <- <-. split; [exact F|split; assumption].
  - injection E as <- <-. destruct (0 <? s_new s); (split; [exact F|split; assumption]).
  - injection E as <- <-. destruct (0 <? s_full s) eqn:C; [|split; [exact F|split; assumption]]. apply FL; lia.
  - injection E as <- <-. destruct (0 <? s_flush s) eqn:C; [|split; [exact F|split; assumption]]. apply FL; lia.
  - injection E as <- <-. destruct (s_timer s) as [d|]; [|split; [exact F|split; assumption]]. destruct (d <=? mono t); [|split; [exact F|split; assumption]]. apply FL; lia.
Qed.
Lemma J_run k l : forall s s' os, J k s -> prun k s l = (s', os) -> J k s'.
Proof.
  induction l as [|e l IH]; intros s s' os Js E; cbn [prun] in E; [injection E as <- <-; exact Js|].
  destruct (pstep k s e) as [s1 o] eqn:P. destruct (prun k s1 l) as [s2 os2] eqn:R. injection E as <- <-.
  apply (IH s1 s2 os2); [|exact R]. exact (J_step k s e s1 o Js P).
Qed.
Lemma full_sent k l s os : prun k producer0 l = (s, os) -> due k s ->
  0 < s_full s /\ forall t a x, ~ due k (fst (pstep k s (TakeFull t (a :: x)))).
Proof.
  intros R D. destruct (J_run k l producer0 s os) as (F & P & G); [split; [exact Logic.I|split; [cbn; lia|intros [(b & [] & _)|L]; cbn in L; lia]]|exact R|].
  pose proof (G D) as S. split; [exact S|].
  intros t a x. cbn [pstep fst]. replace (0 <? s_full s) with true by lia.
  destruct (flush_full k false t a x (s_timer s) 0 1 0 s F) as (F1 & F2). exact F2.
Qed.
