From Verif Require Import Base EventModel HealthModel HealthSpec HealthProofs.
From Coq Require Import Lia.

Lemma follows : forall spus s k st,
  runs orderly (started spus) s -> quiet s -> In (k, st) (h_spus s) -> registered s k ->
  (connected s k -> st = SOnline) /\ (~ connected s k -> st = SOffline).
Proof.
  intros spus s k st R Q HI (c & HC & EK).
  pose proof (runs_table _ _ _ R) as [UP NONE].
  pose proof (runs_single _ _ _ (fun s H => proj2 H) R) as SI.
  pose proof (quiet_clean _ (runs_ctl _ _ _ (fun s H => proj1 H) R) Q) as CL.
  destruct Q as (REST & _).
  destruct (h_map s k) as [b|] eqn:EM.
  - pose proof (CL _ _ _ HI EM) as ->. destruct b.
    + split; [reflexivity|]. intros NC. exfalso. apply NC.
      destruct (UP _ EM) as (i & [k' w] & N & E' & U). cbn in E'. subst k'.
      destruct (rest_nth _ _ _ REST N) as [E|E]; cbn in E; subst w; [|destruct U].
      unfold connected. eapply nth_error_In, N.
    + split; [|reflexivity]. intros C. exfalso.
      apply in_nth in C as [i N]. specialize (SI _ _ N I). cbn in SI. congruence.
  - exfalso. apply in_nth in HC as [i N]. specialize (NONE _ EM _ _ N EK).
    destruct (rest_nth _ _ _ REST N) as [E|E]; congruence.
Qed.

Lemma down : forall spus s k st,
  runs one_increment (started spus) s -> quiet s -> In (k, st) (h_spus s) -> registered s k ->
  ~ connected s k -> st = SOffline.
Proof.
  intros spus s k st R Q HI (c & HC & EK) NC.
  pose proof (runs_table _ _ _ R) as [UP NONE].
  pose proof (quiet_clean _ (runs_ctl _ _ _ (fun s H => H) R) Q) as CL.
  destruct Q as (REST & _).
  destruct (h_map s k) as [b|] eqn:EM.
  - pose proof (CL _ _ _ HI EM) as ->. destruct b; [|reflexivity]. exfalso. apply NC.
    destruct (UP _ EM) as (i & [k' w] & N & E' & U). cbn in E'. subst k'.
    destruct (rest_nth _ _ _ REST N) as [E|E]; cbn in E; subst w; [|destruct U].
    unfold connected. eapply nth_error_In, N.
  - exfalso. apply in_nth in HC as [i N]. specialize (NONE _ EM _ _ N EK).
    destruct (rest_nth _ _ _ REST N) as [E|E]; congruence.
Qed.

Lemma untouched : forall P spus s k st,
  runs P (started spus) s -> In (k, st) (h_spus s) -> ~ registered s k -> st = SInit \/ In (k, st) spus.
Proof.
  intros P spus s k st R HI NR.
  assert (SV : status_inv spus s).
  { revert s R HI NR. intros s R _ _. revert s R. apply runs_inv.
    - intros k' _. cbn. repeat split; auto.
    - intros s a s' H _ ST. eapply status_step; eassumption. }
  assert (NM : forall s, runs P (started spus) s -> forall k, h_map s k <> None -> registered s k).
  { apply (runs_inv P (fun s => forall k, h_map s k <> None -> registered s k) (started spus)).
    - intros k' E. cbn in E. congruence.
    - intros s1 a s2 H _ ST k' E.
      destruct (touches _ _ _ ST) as [EM EC EV|k0 _ ->|i k0 EI ->|i T].
      + rewrite EM in E. destruct (H _ E) as (c & HC & EK). exists c. rewrite EC. auto.
      + destruct (H _ E) as (c & HC & EK). exists c. split; [cbn; apply in_or_app; left; exact HC|exact EK].
      + destruct (H _ E) as (c & HC & EK). apply in_nth in HC as [j N].
        assert (G : exists c', nth_error (h_conns (with_conns s1 (set_at (h_conns s1) i (KInsert false)))) j = Some c' /\ k_spu c' = k').
        { cbn. rewrite nth_set_at. destruct (Nat.eqb_spec j i) as [->|NE]; [|eauto].
          rewrite N. cbn. eexists. split; [reflexivity|]. exact EK. }
        destruct G as (c' & N' & EK'). exists c'. split; [eapply nth_error_In, N'|exact EK'].
      + assert (G : exists j c, nth_error (h_conns s1) j = Some c /\ k_spu c = k').
        { unfold task_step in T. destruct (nth_error (h_conns s1) i) as [c|] eqn:EI; [|discriminate].
          destruct (Z.eqb_spec k' (k_spu c)) as [->|NE]; [eauto|].
          assert (E' : h_map s1 k' <> None).
          { destruct (k_at c); try discriminate; injection T as <-; cbn in E; try exact E.
            apply Z.eqb_neq in NE. rewrite NE in E. exact E. }
          destruct (H _ E') as (x & HX & EK). apply in_nth in HX as [j N]. eauto. }
        destruct G as (j & c & N & EK).
        assert (G : exists c', nth_error (h_conns s2) j = Some c' /\ k_spu c' = k').
        { unfold task_step in T. destruct (nth_error (h_conns s1) i) as [ci|] eqn:EI; [|discriminate].
          destruct (k_at ci); try discriminate; injection T as <-; cbn;
            rewrite nth_set_at; (destruct (Nat.eqb_spec j i) as [->|NE]; [|eauto]);
            rewrite N; cbn; eexists; (split; [reflexivity|exact EK]). }
        destruct G as (c' & N' & EK'). exists c'. split; [eapply nth_error_In, N'|exact EK']. }
  destruct (h_map s k) eqn:EM.
  - exfalso. apply NR. apply (NM s R). congruence.
  - apply (SV k EM). exact HI.
Qed.

(** ** A quiet state is always near *)

Lemma settles_trans : forall P s1 s2 s3, settles P s1 s2 -> settles P s2 s3 -> settles P s1 s3.
Proof.
  intros P s1 s2 s3 H1 H2. induction H2 as [|a x y H2 IH B ST HP]; [exact H1|].
  eapply settles_step; eassumption.
Qed.
Lemma settles_one : forall (P : health -> Prop) s a s', by_itself a -> hstep s a = Some s' -> P s' -> settles P s s'.
Proof. intros. eapply settles_step; [apply settles_start|eassumption..]. Qed.
Lemma settles_runs : forall (P : health -> Prop) s0 s s', runs P s0 s -> settles P s s' -> runs P s0 s'.
Proof.
  intros P s0 s s' R H. induction H as [|a x y H IH B ST HP]; [exact R|].
  eapply runs_step; eassumption.
Qed.

Lemma orderly_conns : forall s s', h_conns s' = h_conns s -> orderly s -> orderly s'.
Proof.
  intros s s' E [O1 O2]. unfold orderly, one_increment, one_connection, incrementing, live in *.
  rewrite E. split; assumption.
Qed.

(** *** first the tasks *)
Definition todo (c : conn) : nat :=
  match k_at c with KInsert _ => 4 | KLoad _ => 3 | KStore _ _ => 2 | KNotify _ => 1 | _ => 0 end%nat.
Definition todos (l : list conn) : nat := fold_right (fun c n => todo c + n)%nat 0%nat l.

Lemma todos_set : forall l i c w, nth_error l i = Some c ->
  (todos (set_at l i w) + todo c = todos l + todo (mkK (k_spu c) w))%nat.
Proof.
  intros l i c w E. unfold set_at. rewrite E.
  rewrite <- (firstn_skipn i l) at 3.
  assert (SK : skipn i l = c :: skipn (S i) l).
  { clear - E. revert i E. induction l as [|x l IH]; intros [|i] E; try discriminate.
    - injection E as ->. reflexivity.
    - cbn. apply IH, E. }
  rewrite SK. unfold todos. rewrite !fold_right_app. cbn.
  generalize (firstn i l) as m. generalize (skipn (S i) l) as n. intros n m.
  induction m as [|x m IH]; cbn in *; lia.
Qed.
Lemma todos_zero : forall l, todos l = 0%nat -> Forall at_rest l.
Proof.
  induction l as [|c l IH]; intros H; [constructor|]. change (todo c + todos l = 0)%nat in H. constructor; [|apply IH; lia].
  unfold at_rest. unfold todo in H. destruct (k_at c); try (exfalso; lia); auto.
Qed.
Lemma todos_pos : forall l, (todos l > 0)%nat -> exists i c, nth_error l i = Some c /\ (todo c > 0)%nat.
Proof.
  induction l as [|c l IH]; intros H; [cbn in H; lia|]. change (todo c + todos l > 0)%nat in H.
  destruct (todo c) as [|n] eqn:E.
  - destruct IH as (i & x & N & P); [lia|]. exists (S i), x. auto.
  - exists 0%nat, c. split; [reflexivity|lia].
Qed.

Lemma task_goes : forall s i c, nth_error (h_conns s) i = Some c -> (todo c > 0)%nat ->
  exists s' w, task_step s i = Some s' /\ h_conns s' = set_at (h_conns s) i w /\
    (todo (mkK (k_spu c) w) < todo c)%nat /\
    h_at s' = h_at s /\ (forall up v, w = KStore up v -> exists up', k_at c = KLoad up') /\
    (w <> KEnded -> k_at c <> KEnded).
Proof.
  intros s i c E T. unfold task_step. rewrite E. unfold todo in *.
  destruct (k_at c) as [b|b|b v|b| |] eqn:EA; try lia.
  - do 2 eexists. split; [reflexivity|]. cbn. split; [reflexivity|].
    destruct (match h_map s (k_spu c) with Some _ => _ | None => _ end), b; cbn;
      (split; [lia|split; [reflexivity|split; [intros; discriminate|congruence]]]).
  - do 2 eexists. split; [reflexivity|]. cbn. split; [reflexivity|].
    split; [lia|split; [reflexivity|split; [eauto|congruence]]].
  - do 2 eexists. split; [reflexivity|]. cbn. split; [reflexivity|].
    split; [lia|split; [reflexivity|split; [intros; discriminate|congruence]]].
  - do 2 eexists. split; [reflexivity|]. cbn. split; [reflexivity|].
    destruct b; cbn; (split; [lia|split; [reflexivity|split; [intros; discriminate|congruence]]]).
Qed.

Lemma tasks_finish : forall n s, (todos (h_conns s) <= n)%nat -> orderly s ->
  exists s', settles orderly s s' /\ orderly s' /\ Forall at_rest (h_conns s').
Proof.
  induction n as [|n IH]; intros s LE O.
  - exists s. split; [apply settles_start|]. split; [exact O|]. apply todos_zero. lia.
  - destruct (Nat.eq_dec (todos (h_conns s)) 0) as [Z|NZ].
    { exists s. split; [apply settles_start|]. split; [exact O|]. apply todos_zero, Z. }
    (* the task that increments goes first, if there is one *)
    assert (CH : exists i c, nth_error (h_conns s) i = Some c /\ (todo c > 0)%nat /\
                   ((exists up v, k_at c = KStore up v) \/ forall j, ~ incrementing s j)).
    { assert (D : (exists j, incrementing s j) \/ forall j, ~ incrementing s j).
      { assert (G : forall l, (exists j k up v, nth_error l j = Some (mkK k (KStore up v))) \/
                              forall j, ~ exists k up v, nth_error l j = Some (mkK k (KStore up v))).
        { induction l as [|c l IHl].
          - right. intros j (k & up & v & N). destruct j; discriminate.
          - destruct c as [k w]. destruct w as [b|b|b v|b| |];
              try (destruct IHl as [(j & G)|G];
                   [left; exists (S j); exact G|right; intros [|j] (k' & up & v' & N); [discriminate|apply (G j); exists k', up, v'; exact N]]).
            left. exists 0%nat, k, b, v. reflexivity. }
        destruct (G (h_conns s)) as [(j & G')|G']; [left; exists j; exact G'|right; exact G']. }
      destruct D as [(j & k & up & v & N)|D].
      - exists j, (mkK k (KStore up v)). split; [exact N|]. split; [cbn; lia|]. left. exists up, v. reflexivity.
      - destruct (todos_pos (h_conns s)) as (i & c & N & T); [lia|]. exists i, c. auto. }
    destruct CH as (i & c & N & T & CH).
    destruct (task_goes s i c N T) as (s1 & w & ST & EC & TD & _ & WS & WE).
    assert (O1 : orderly s1).
    { destruct O as [OI OC]. split.
      - intros a b (ka & ua & va & Na) (kb & ub & vb & Nb). rewrite EC in Na, Nb. rewrite nth_set_at in Na, Nb.
        destruct (Nat.eqb_spec a i) as [->|NA]; destruct (Nat.eqb_spec b i) as [->|NB]; try reflexivity.
        + rewrite N in Na. cbn in Na. injection Na as _ ->. destruct (WS _ _ eq_refl) as (u & EL).
          destruct CH as [(u' & v' & E')|CH]; [congruence|]. exfalso. apply (CH b). exists kb, ub, vb. exact Nb.
        + rewrite N in Nb. cbn in Nb. injection Nb as _ ->. destruct (WS _ _ eq_refl) as (u & EL).
          destruct CH as [(u' & v' & E')|CH]; [congruence|]. exfalso. apply (CH a). exists ka, ua, va. exact Na.
        + apply OI; [exists ka, ua, va; exact Na|exists kb, ub, vb; exact Nb].
      - assert (LV : forall a k, live s1 a k -> live s a k).
        { intros a k (wa & Na & NEa). rewrite EC, nth_set_at in Na.
          destruct (Nat.eqb_spec a i) as [->|NA]; [|exists wa; auto].
          rewrite N in Na. cbn in Na. injection Na as <- ->. destruct c as [kc wc]. cbn in *.
          exists wc. split; [exact N|]. apply WE, NEa. }
        intros a b k La Lb. eapply OC; apply LV; eassumption. }
    assert (S1 : settles orderly s s1) by (eapply (settles_one _ _ (HTask i)); [exact I|exact ST|exact O1]).
    destruct (IH s1) as (s2 & S2 & O2 & R2).
    { rewrite EC. pose proof (todos_set (h_conns s) i c w N). lia. }
    { exact O1. }
    exists s2. split; [eapply settles_trans; eassumption|auto].
Qed.

(** *** then the controller *)
Definition still (s : health) : Prop := orderly s /\ Forall at_rest (h_conns s).
Lemma still_conns : forall s s', h_conns s' = h_conns s -> still s -> still s'.
Proof. intros s s' E [O R]. split; [eapply orderly_conns; eassumption|rewrite E; exact R]. Qed.

(* what the controller does next is possible, and leaves the connections alone *)
Definition gets (s : health) (G : health -> Prop) : Prop :=
  exists s', settles orderly s s' /\ still s' /\ G s'.
Lemma gets_now : forall s (G : health -> Prop), still s -> G s -> gets s G.
Proof. intros s G S H. exists s. split; [apply settles_start|auto]. Qed.
Lemma gets_step : forall s a s' G, still s -> by_itself a -> hstep s a = Some s' ->
  h_conns s' = h_conns s -> gets s' G -> gets s G.
Proof.
  intros s a s' G S B ST E (x & H & S' & HG). exists x. split; [|auto].
  eapply settles_trans; [|exact H]. eapply settles_one; [exact B|exact ST|].
  apply (still_conns _ _ E S).
Qed.
Lemma gets_trans : forall s (G G' : health -> Prop), gets s G -> (forall s', still s' -> G s' -> gets s' G') -> gets s G'.
Proof.
  intros s G G' (x & H & S & HG) K. destruct (K x S HG) as (y & H' & S' & HG').
  exists y. split; [eapply settles_trans; eassumption|auto].
Qed.

Definition idle (s : health) : Prop := h_at s = CListen /\ l_at (h_lis s) = LOut.
Definition fresh (s : health) : Prop := h_at s = CSync /\ l_at (h_lis s) = LOut.
Definition agrees (s : health) : Prop := sync_changes (h_map s) (h_spus s) = [].

Lemma idle_quiet : forall s, still s -> idle s -> h_value s = l_last (h_lis s) -> ~ h_seen s < h_epoch s -> gets s quiet.
Proof.
  intros s S [A L] EV SE. destruct s as [m v cs sp ep at_ se [la lw] lt]. cbn in *. subst.
  eapply (gets_step _ (HListenStep Check)); [exact S|exact I|cbn [hstep h_at h_lis h_value]; unfold lstep, is_new; cbn [l_at l_last]; rewrite Z.eqb_refl; reflexivity|reflexivity|].
  eapply (gets_step _ (HListenStep Register)); [eapply still_conns; [reflexivity|exact S]|exact I|reflexivity|reflexivity|].
  eapply (gets_step _ (HListenStep Recheck)); [eapply still_conns; [reflexivity|exact S]|exact I|cbn [hstep h_at h_lis h_value]; unfold lstep, is_new; cbn [l_at l_last]; rewrite Z.eqb_refl; reflexivity|reflexivity|].
  apply gets_now; [eapply still_conns; [|exact S]; reflexivity|].
  split; [exact (proj2 S)|]. cbn. auto.
Qed.

Lemma pass_clean : forall s, still s -> fresh s -> agrees s ->
  exists s', settles orderly s s' /\ still s' /\ idle s' /\ agrees s' /\
    h_value s' = h_value s /\ h_lis s' = h_lis s /\ h_seen s' = h_seen s /\ h_epoch s' = h_epoch s.
Proof.
  intros s S [A L] AG. destruct s as [m v cs sp ep at_ se [la lw] lt]. cbn in *. subst.
  exists (mkH m v cs sp ep CListen se (mkL la LOut) lt).
  assert (S' : forall w, still (mkH m v cs sp ep w se (mkL la LOut) lt)) by (intros w; eapply still_conns; [|exact S]; reflexivity).
  split.
  { eapply (settles_step _ _ HWritten (mkH m v cs sp ep (CWrite []) se (mkL la LOut) lt)); [|exact I|reflexivity|exact (proj1 (S' CListen))].
    eapply (settles_step _ _ HReadTable (mkH m v cs sp ep (CRead sp) se (mkL la LOut) lt)); [|exact I| |exact (proj1 (S' (CWrite [])))].
    2: { unfold agrees in AG. cbn [h_map h_spus] in AG. cbn [hstep h_at h_map]. rewrite AG. reflexivity. }
    eapply (settles_one _ _ HClone); [exact I|reflexivity|exact (proj1 (S' (CRead sp)))]. }
  split; [apply S'|]. repeat split; exact AG.
Qed.

Lemma agrees_quiet : forall s, still s -> fresh s -> agrees s -> gets s quiet.
Proof.
  (* first without news of the health listener, then without news of the store *)
  assert (A1 : forall s, still s -> fresh s -> agrees s -> h_value s = l_last (h_lis s) -> ~ h_seen s < h_epoch s -> gets s quiet).
  { intros s S F AG EV SE. destruct (pass_clean s S F AG) as (s1 & H1 & S1 & I1 & AG1 & E1 & E2 & E3 & E4).
    destruct (idle_quiet s1 S1 I1) as (x & H & G); [congruence|rewrite E3, E4; exact SE|].
    exists x. split; [eapply settles_trans; eassumption|exact G]. }
  assert (A2 : forall s, still s -> fresh s -> agrees s -> h_value s = l_last (h_lis s) -> gets s quiet).
  { intros s S F AG EV. destruct (Z.ltb_spec (h_seen s) (h_epoch s)) as [LT|GE].
    - destruct (pass_clean s S F AG) as (s1 & H1 & S1 & [I1 I2] & AG1 & E1 & E2 & E3 & E4).
      assert (ST : hstep s1 HStoreChange = Some (mkH (h_map s1) (h_value s1) (h_conns s1) (h_spus s1) (h_epoch s1) CSync (h_epoch s1) (mkL (l_last (h_lis s1)) LOut) (h_late s1))).
      { cbn. rewrite I1, I2. destruct (Z.ltb_spec (h_seen s1) (h_epoch s1)); [reflexivity|lia]. }
      assert (G : gets s1 quiet).
      { eapply gets_step; [exact S1| |exact ST|reflexivity|]; [exact I|]. apply A1.
        - eapply still_conns; [|exact S1]; reflexivity.
        - split; reflexivity.
        - exact AG1.
        - cbn. congruence.
        - cbn. lia. }
      destruct G as (x & H & G). exists x. split; [eapply settles_trans; eassumption|exact G].
    - apply A1; auto. lia. }
  intros s S F AG. destruct (Z.eq_dec (h_value s) (l_last (h_lis s))) as [E|NE]; [apply A2; auto|].
  destruct (pass_clean s S F AG) as (s1 & H1 & S1 & [I1 I2] & AG1 & E1 & E2 & E3 & E4).
  assert (ST : hstep s1 (HListenStep Check) = Some (mkH (h_map s1) (h_value s1) (h_conns s1) (h_spus s1) (h_epoch s1) CSync (h_seen s1) (mkL (h_value s1) LOut) (h_late s1))).
  { cbn. rewrite I1. unfold lstep. rewrite I2. unfold is_new.
    destruct (Z.eqb_spec (h_value s1) (l_last (h_lis s1))); [congruence|]. reflexivity. }
  assert (G : gets s1 quiet).
  { eapply gets_step; [exact S1| |exact ST|reflexivity|]; [exact I|]. apply A2.
    - eapply still_conns; [|exact S1]; reflexivity.
    - split; reflexivity.
    - exact AG1.
    - reflexivity. }
  destruct G as (x & H & G). exists x. split; [eapply settles_trans; eassumption|exact G].
Qed.

Lemma known_set : forall k k' st l, known k (set_status k' st l) = known k l.
Proof.
  intros k k' st l. unfold known, set_status. induction l as [|e l IH]; cbn; [reflexivity|].
  rewrite IH. destruct (Z.eqb_spec (fst e) k') as [->|N]; reflexivity.
Qed.

Definition right (m : Z -> option bool) (e : Z * sstatus) : Prop := forall b, m (fst e) = Some b -> snd e = as_status b.

Lemma right_agrees : forall m l, Forall (right m) l -> sync_changes m l = [].
Proof.
  intros m l F. unfold sync_changes. induction F as [|[k st] l R F IH]; cbn; [reflexivity|].
  rewrite IH, app_nil_r. unfold sync_one, right in *. cbn in *. destruct (m k) as [b|]; [|reflexivity].
  rewrite (R b eq_refl). destruct b; reflexivity.
Qed.

Lemma writes : forall W s, still s -> h_at s = CWrite W -> l_at (h_lis s) = LOut ->
  Forall (right (h_map s)) W ->
  Forall (fun e => known (fst e) (h_spus s) = true) W ->
  Forall (fun e => right (h_map s) e \/ In (fst e) (map fst W)) (h_spus s) ->
  gets s (fun s' => idle s' /\ agrees s').
Proof.
  induction W as [|[k st] W IH]; intros s S A L R K C.
  - eapply (gets_step _ HWritten); [exact S|exact I|cbn; rewrite A; reflexivity|reflexivity|].
    apply gets_now; [eapply still_conns; [|exact S]; reflexivity|].
    split; [split; [reflexivity|exact L]|]. unfold agrees. cbn. apply right_agrees.
    eapply Forall_impl; [|exact C]. intros e [H|[]]. exact H.
  - inversion K as [|? ? K1 K2]; subst. cbn in K1. inversion R as [|? ? R1 R2]; subst.
    eapply (gets_step _ HWrite); [exact S|exact I|cbn; rewrite A, K1; reflexivity|reflexivity|].
    apply IH; cbn.
    + eapply still_conns; [|exact S]; reflexivity.
    + reflexivity.
    + exact L.
    + exact R2.
    + eapply Forall_impl; [|exact K2]. intros e KE. etransitivity; [apply known_set|exact KE].
    + rewrite Forall_forall in *. intros e HE. unfold set_status in HE. apply in_map_iff in HE as (x & E & HX).
      destruct (Z.eqb_spec (fst x) k) as [EK|NE].
      * left. subst e. exact R1.
      * subst e. destruct (C _ HX) as [H|[H|H]]; [left; exact H|cbn in H; congruence|right; exact H].
Qed.

Lemma fresh_agrees : forall s, still s -> fresh s -> gets s (fun s' => idle s' /\ agrees s').
Proof.
  intros s S [A L].
  eapply (gets_step _ HClone); [exact S|exact I|cbn; rewrite A; reflexivity|reflexivity|].
  eapply (gets_step _ HReadTable); [eapply still_conns; [reflexivity|exact S]|exact I|reflexivity|reflexivity|].
  eapply writes; [eapply still_conns; [|exact S]; reflexivity|reflexivity|exact L| | |]; cbn;
    rewrite Forall_forall.
  - intros [k st] H b E. cbn in *. unfold sync_changes in H. apply in_flat_map in H as ([k' st'] & HI & H).
    unfold sync_one in H. cbn in H. destruct (h_map s k') as [b'|] eqn:E'; [|destruct H].
    destruct (is_init st'); [destruct H as [[= <- <-]|[]]; congruence|].
    destruct (Bool.eqb (is_up st') b'); [destruct H|]. destruct H as [[= <- <-]|[]]; congruence.
  - intros [k st] H. cbn. unfold sync_changes in H. apply in_flat_map in H as ([k' st'] & HI & H).
    assert (k = k') as ->.
    { unfold sync_one in H. cbn in H. destruct (h_map s k'); [|destruct H].
      destruct (is_init st'); [destruct H as [[= <- <-]|[]]; reflexivity|].
      destruct (Bool.eqb (is_up st') b); [destruct H|]. destruct H as [[= <- <-]|[]]; reflexivity. }
    unfold known. apply existsb_exists. exists (k', st'). split; [exact HI|]. apply Z.eqb_refl.
  - intros [k st] HI. destruct (h_map s k) as [b|] eqn:E; [|left; intros b E'; cbn in E'; congruence].
    destruct (sync_one (h_map s) (k, st)) as [|e' t] eqn:ES.
    + left. intros b' E'. cbn in *. assert (b' = b) by congruence. subst b'.
      unfold sync_one in ES. cbn in ES. rewrite E in ES. destruct st, b; cbn in ES; try discriminate; reflexivity.
    + right. cbn. apply in_map_iff. exists e'. split.
      * unfold sync_one in ES. cbn in ES. rewrite E in ES.
        destruct (is_init st); [inversion ES; reflexivity|]. destruct (Bool.eqb (is_up st) b); inversion ES; reflexivity.
      * unfold sync_changes. apply in_flat_map. exists (k, st). split; [exact HI|]. rewrite ES. left. reflexivity.
Qed.

Definition out_inv (s : health) : Prop := h_at s <> CListen -> l_at (h_lis s) = LOut.
Lemma out_step : forall s a s', out_inv s -> hstep s a = Some s' -> out_inv s'.
Proof.
  intros s a s' HI H. unfold out_inv in *. destruct a; cbn in H.
  - destruct (known s0 (h_spus s)); [|discriminate]. injection H as <-. exact HI.
  - destruct (nth_error (h_conns s) i) as [[k w]|]; [|discriminate]. destruct w; try discriminate.
    injection H as <-. exact HI.
  - unfold task_step in H. destruct (nth_error (h_conns s) i) as [c|]; [|discriminate].
    destruct (k_at c); try discriminate; injection H as <-; cbn; try exact HI.
    intros N. rewrite (HI N). reflexivity.
  - destruct (known s0 (h_spus s)); [discriminate|]. injection H as <-. exact HI.
  - destruct (known s0 (h_spus s)); [|discriminate]. injection H as <-. exact HI.
  - destruct (h_at s) eqn:EA; try discriminate. injection H as <-. cbn. intros _. apply HI. discriminate.
  - destruct (h_at s) eqn:EA; try discriminate. injection H as <-. cbn. intros _. apply HI. discriminate.
  - destruct (h_at s) as [| |[|[k st] l]|] eqn:EA; try discriminate.
    destruct (known k (h_spus s)); [|discriminate]. injection H as <-. cbn. intros _. apply HI. discriminate.
  - destruct (h_at s) as [| |[|e l]|] eqn:EA; try discriminate. injection H as <-. reflexivity.
  - destruct (h_late s) as [|[k st] l]; [discriminate|]. injection H as <-.
    destruct (known k (h_spus s)); exact HI.
  - destruct (h_at s) as [| |[|e l]|] eqn:EA; try discriminate. injection H as <-. cbn. congruence.
  - destruct (h_at s) eqn:EA; try (destruct a; discriminate).
    destruct (lstep Offsets (h_value s) a (h_lis s)) as [[l r]|] eqn:E; [|destruct a; discriminate].
    destruct a; try discriminate; injection H as <-; cbn; destruct r as [r|]; try congruence;
      intros _; eapply lstep_some, E.
  - destruct (h_at s) eqn:EA; try discriminate.
    destruct (l_at (h_lis s)); try discriminate; (destruct (h_seen s <? h_epoch s); [|discriminate]; injection H as <-; reflexivity).
  - injection H as <-. exact HI.
Qed.

Definition fresh_or_quiet (s : health) : Prop := fresh s \/ quiet s.

Lemma from_idle : forall s, still s -> idle s -> gets s fresh_or_quiet.
Proof.
  intros s S [A L]. destruct (Z.ltb_spec (h_seen s) (h_epoch s)) as [LT|GE].
  - eapply (gets_step _ HStoreChange); [exact S|exact I|cbn; rewrite A, L; destruct (Z.ltb_spec (h_seen s) (h_epoch s)); [reflexivity|lia]|reflexivity|].
    apply gets_now; [eapply still_conns; [|exact S]; reflexivity|]. left. split; reflexivity.
  - destruct (Z.eq_dec (h_value s) (l_last (h_lis s))) as [E|NE].
    + destruct (idle_quiet s S (conj A L) E) as (x & H & G & Q); [lia|].
      exists x. split; [exact H|]. split; [exact G|]. right. exact Q.
    + eapply (gets_step _ (HListenStep Check)); [exact S|exact I|cbn; rewrite A; unfold lstep; rewrite L; unfold is_new; destruct (Z.eqb_spec (h_value s) (l_last (h_lis s))); [contradiction|reflexivity]|reflexivity|].
      apply gets_now; [eapply still_conns; [|exact S]; reflexivity|]. left. split; reflexivity.
Qed.

Lemma from_woken : forall s, still s -> h_at s = CListen -> l_at (h_lis s) = LWoken -> gets s fresh_or_quiet.
Proof.
  intros s S A L. eapply (gets_step _ (HListenStep Read)); [exact S|exact I|cbn; rewrite A; unfold lstep; rewrite L; reflexivity|reflexivity|].
  apply gets_now; [eapply still_conns; [|exact S]; reflexivity|]. left. split; reflexivity.
Qed.

Lemma from_waiting : forall s n, still s -> h_at s = CListen -> l_at (h_lis s) = LWaiting n -> gets s fresh_or_quiet.
Proof.
  intros s [|] S A L.
  - eapply (gets_step _ (HListenStep Wake)); [exact S|exact I|cbn; rewrite A; unfold lstep; rewrite L; reflexivity|reflexivity|].
    apply from_woken; [eapply still_conns; [|exact S]; reflexivity|reflexivity|reflexivity].
  - destruct (Z.ltb_spec (h_seen s) (h_epoch s)) as [LT|GE].
    + eapply (gets_step _ HStoreChange); [exact S|exact I|cbn; rewrite A, L; destruct (Z.ltb_spec (h_seen s) (h_epoch s)); [reflexivity|lia]|reflexivity|].
      apply gets_now; [eapply still_conns; [|exact S]; reflexivity|]. left. split; reflexivity.
    + apply gets_now; [exact S|]. right. split; [exact (proj2 S)|]. repeat split; auto. lia.
Qed.

Lemma from_registered : forall s n, still s -> h_at s = CListen -> l_at (h_lis s) = LRegistered n -> gets s fresh_or_quiet.
Proof.
  intros s n S A L. destruct (is_new Offsets (h_value s) (l_last (h_lis s))) eqn:EN.
  - eapply (gets_step _ (HListenStep Recheck)); [exact S|exact I|cbn [hstep]; rewrite A; unfold lstep; rewrite L, EN; reflexivity|reflexivity|].
    apply gets_now; [eapply still_conns; [|exact S]; reflexivity|]. left. split; reflexivity.
  - eapply (gets_step _ (HListenStep Recheck)); [exact S|exact I|cbn [hstep]; rewrite A; unfold lstep; rewrite L, EN; reflexivity|reflexivity|].
    eapply from_waiting; [eapply still_conns; [|exact S]; reflexivity|reflexivity|reflexivity].
Qed.

Lemma from_write : forall W s, still s -> h_at s = CWrite W -> l_at (h_lis s) = LOut -> gets s fresh_or_quiet.
Proof.
  induction W as [|[k st] W IH]; intros s S A L.
  - eapply (gets_step _ HWritten); [exact S|exact I|cbn; rewrite A; reflexivity|reflexivity|].
    apply from_idle; [eapply still_conns; [|exact S]; reflexivity|]. split; [reflexivity|exact L].
  - destruct (known k (h_spus s)) eqn:K.
    + eapply (gets_step _ HWrite); [exact S|exact I|cbn; rewrite A, K; reflexivity|reflexivity|].
      apply IH; [eapply still_conns; [|exact S]; reflexivity|reflexivity|exact L].
    + eapply (gets_step _ HTimeout); [exact S|exact I|cbn; rewrite A; reflexivity|reflexivity|].
      apply gets_now; [eapply still_conns; [|exact S]; reflexivity|]. left. split; reflexivity.
Qed.

Lemma from_any : forall s, still s -> out_inv s -> gets s fresh_or_quiet.
Proof.
  intros s S O. unfold out_inv in O. destruct (h_at s) as [|l|W|] eqn:A.
  - apply gets_now; [exact S|]. left. split; [exact A|apply O; discriminate].
  - eapply (gets_step _ HReadTable); [exact S|exact I|cbn; rewrite A; reflexivity|reflexivity|].
    eapply from_write; [eapply still_conns; [|exact S]; reflexivity|reflexivity|apply O; discriminate].
  - eapply from_write; [exact S|exact A|apply O; discriminate].
  - destruct (l_at (h_lis s)) as [| |n|n|] eqn:L.
    + apply from_idle; [exact S|split; assumption].
    + eapply (gets_step _ (HListenStep Register)); [exact S|exact I|cbn; rewrite A; unfold lstep; rewrite L; reflexivity|reflexivity|].
      eapply from_registered; [eapply still_conns; [|exact S]; reflexivity|reflexivity|reflexivity].
    + eapply from_registered; eassumption.
    + eapply from_waiting; eassumption.
    + apply from_woken; assumption.
Qed.

Lemma from_idle_agrees : forall s, still s -> idle s -> agrees s -> gets s quiet.
Proof.
  intros s S [A L] AG. destruct (Z.ltb_spec (h_seen s) (h_epoch s)) as [LT|GE].
  - eapply (gets_step _ HStoreChange); [exact S|exact I|cbn; rewrite A, L; destruct (Z.ltb_spec (h_seen s) (h_epoch s)); [reflexivity|lia]|reflexivity|].
    apply agrees_quiet; [eapply still_conns; [|exact S]; reflexivity|split; reflexivity|exact AG].
  - destruct (Z.eq_dec (h_value s) (l_last (h_lis s))) as [E|NE].
    + apply idle_quiet; [exact S|split; assumption|exact E|lia].
    + eapply (gets_step _ (HListenStep Check)); [exact S|exact I|cbn; rewrite A; unfold lstep; rewrite L; unfold is_new; destruct (Z.eqb_spec (h_value s) (l_last (h_lis s))); [contradiction|reflexivity]|reflexivity|].
      apply agrees_quiet; [eapply still_conns; [|exact S]; reflexivity|split; reflexivity|exact AG].
Qed.

Lemma settled : forall spus s, runs orderly (started spus) s -> exists s', settles orderly s s' /\ quiet s'.
Proof.
  intros spus s R.
  destruct (tasks_finish _ s (le_n _) (runs_now _ _ _ R)) as (s1 & H1 & O1 & R1).
  pose proof (settles_runs _ _ _ _ R H1) as RR.
  assert (OUT : out_inv s1).
  { apply (runs_inv orderly out_inv (started spus)); [|intros; eapply out_step; eassumption|exact RR].
    intros _. reflexivity. }
  assert (G : gets s1 quiet).
  { eapply gets_trans; [apply from_any; [split; assumption|exact OUT]|].
    intros s2 S2 [F|Q]; [|apply gets_now; assumption].
    eapply gets_trans; [apply fresh_agrees; assumption|].
    intros s3 S3 [I3 A3]. apply from_idle_agrees; assumption. }
  destruct G as (x & H & _ & Q). exists x. split; [eapply settles_trans; eassumption|exact Q].
Qed.

(** ** Concrete runs *)

Definition storing_b (c : conn) : bool := match k_at c with KStore _ _ => true | _ => false end.
Definition live_b (c : conn) : bool := match k_at c with KEnded => false | _ => true end.
Definition pairs_ok (f : conn -> conn -> bool) (l : list conn) : bool :=
  forallb (fun i => forallb (fun j =>
    match nth_error l i, nth_error l j with
    | Some a, Some b => implb (f a b) (Nat.eqb i j)
    | _, _ => true
    end) (seq 0 (length l))) (seq 0 (length l)).
Definition increments_ok (s : health) : bool := pairs_ok (fun a b => storing_b a && storing_b b) (h_conns s).
Definition connections_ok (s : health) : bool :=
  pairs_ok (fun a b => live_b a && live_b b && (k_spu a =? k_spu b)) (h_conns s).
Definition orderly_b (s : health) : bool := increments_ok s && connections_ok s.

Lemma pairs_sound : forall f l, pairs_ok f l = true ->
  forall i j a b, nth_error l i = Some a -> nth_error l j = Some b -> f a b = true -> i = j.
Proof.
  intros f l H i j a b NI NJ F. unfold pairs_ok in H. rewrite forallb_forall in H.
  assert (LI : In i (seq 0 (length l))) by (apply in_seq; split; [lia|]; apply nth_error_Some; congruence).
  assert (LJ : In j (seq 0 (length l))) by (apply in_seq; split; [lia|]; apply nth_error_Some; congruence).
  specialize (H i LI). rewrite forallb_forall in H. specialize (H j LJ). rewrite NI, NJ, F in H.
  apply Nat.eqb_eq, H.
Qed.
Lemma increments_sound : forall s, increments_ok s = true -> one_increment s.
Proof.
  intros s H i j (k & u & v & N) (k' & u' & v' & N'). eapply (pairs_sound _ _ H); [exact N|exact N'|reflexivity].
Qed.
Lemma connections_sound : forall s, connections_ok s = true -> one_connection s.
Proof.
  intros s H i j k (w & N & E) (w' & N' & E'). eapply (pairs_sound _ _ H); [exact N|exact N'|].
  cbn. rewrite Z.eqb_refl. destruct w, w'; try congruence; reflexivity.
Qed.
Lemma orderly_sound : forall s, orderly_b s = true -> orderly s.
Proof.
  intros s H. apply andb_prop in H as [H1 H2]. split; [apply increments_sound, H1|apply connections_sound, H2].
Qed.

Fixpoint checked (f : health -> bool) (s : health) (l : list haction) : option health :=
  match l with
  | [] => Some s
  | a :: t => match hstep s a with Some s' => if f s' then checked f s' t else None | None => None end
  end.
Lemma checked_runs : forall (P : health -> Prop) f, (forall s, f s = true -> P s) ->
  forall l s0 s s', runs P s0 s -> checked f s l = Some s' -> runs P s0 s'.
Proof.
  intros P f W l. induction l as [|a l IH]; intros s0 s s' R H; cbn in H; [congruence|].
  destruct (hstep s a) as [s1|] eqn:ST; [|discriminate]. destruct (f s1) eqn:F; [|discriminate].
  eapply IH; [|exact H]. eapply runs_step; [exact R|exact ST|apply W, F].
Qed.
Lemma started_orderly : forall spus, orderly (started spus).
Proof. intros spus. apply orderly_sound. reflexivity. Qed.

Definition tasks (i : nat) : list haction := repeat (HTask i) 4.
Definition look : list haction := [HClone; HReadTable; HWritten].
Definition to_wait : list haction := [HListenStep Check; HListenStep Register; HListenStep Recheck].

(* two servers: 1 comes, goes and comes again, 2 comes and goes; 3 never comes *)
Definition day : list haction :=
  [HConnect 1] ++ tasks 0 ++ [HClone; HReadTable; HConnect 2] ++ tasks 1 ++
  [HWrite; HWritten; HStoreChange; HClone; HReadTable; HWrite; HWritten; HEnd 0] ++ tasks 0 ++
  [HListenStep Check; HConnect 1] ++ repeat (HTask 2) 2 ++ [HClone; HReadTable; HWritten; HListenStep Check] ++
  repeat (HTask 2) 2 ++ [HEnd 1] ++ tasks 1.
Definition evening : list haction :=
  [HListenStep Register; HListenStep Recheck; HClone; HReadTable; HWrite; HWritten; HStoreChange] ++ look ++ to_wait.
Definition three : list (Z * sstatus) := [(1, SInit); (2, SOffline); (3, SOnline)].

Lemma rest_all : forall s, forallb (fun c => match k_at c with KServing | KEnded => true | _ => false end) (h_conns s) = true ->
  Forall at_rest (h_conns s).
Proof.
  intros s H. rewrite forallb_forall in H. rewrite Forall_forall. intros c HC. specialize (H c HC).
  unfold at_rest. destruct (k_at c); auto; discriminate.
Qed.

(** ** After the store has been synced again *)

Lemma exec_inv : forall (I : health -> Prop), (forall s a s', I s -> alone a -> hstep s a = Some s' -> I s') ->
  forall s, I s -> for_good s I.
Proof.
  intros J HS s HJ l. revert s HJ. induction l as [|a l IH]; intros s HJ s' F H; cbn in H; [congruence|].
  inversion F as [|x y FA FL]; subst. destruct (hstep s a) as [s1|] eqn:ST; [|discriminate].
  eapply IH; [|exact FL|exact H]. eapply HS; eassumption.
Qed.

Definition agree_with (m : Z -> option bool) (l : list (Z * sstatus)) : Prop :=
  forall k st b, In (k, st) l -> m k = Some b -> st = as_status b.

Record sync_inv (m : Z -> option bool) (cs : list conn) (s : health) : Prop := {
  si_map : h_map s = m;
  si_conns : h_conns s = cs;
  si_seen : h_seen s <= h_epoch s;
  si_read : forall l, h_at s = CRead l -> h_seen s = h_epoch s -> l = h_spus s;
  si_clean : h_at s = CWrite [] \/ h_at s = CListen -> h_seen s = h_epoch s -> agree_with m (h_spus s) }.

Lemma rest_task : forall s i s', Forall at_rest (h_conns s) -> task_step s i = Some s' -> False.
Proof.
  intros s i s' R H. unfold task_step in H. destruct (nth_error (h_conns s) i) as [c|] eqn:E; [|discriminate].
  destruct (rest_nth _ _ _ R E) as [EA|EA]; rewrite EA in H; discriminate.
Qed.

Lemma sync_step : forall m cs, Forall at_rest cs ->
  forall s a s', sync_inv m cs s -> alone a -> hstep s a = Some s' -> sync_inv m cs s'.
Proof.
  intros m cs REST s a s' [SM SC SS SR SL] AL H. destruct a; cbn in AL; try contradiction; cbn in H.
  - exfalso. eapply rest_task; [|exact H]. rewrite SC. exact REST.
  - destruct (h_at s) eqn:EA; try discriminate. injection H as <-.
    split; cbn; try assumption.
    + intros l E _. injection E as <-. reflexivity.
    + intros [E|E]; discriminate.
  - destruct (h_at s) as [|l0| |] eqn:EA; try discriminate. injection H as <-.
    split; cbn; try assumption; try discriminate.
    intros [E|E] ES; [|discriminate]. injection E as E.
    specialize (SR _ eq_refl ES). subst l0. rewrite SM in E. intros k st b. apply (sync_nil _ _ E).
  - destruct (h_at s) as [| |[|[k st] l]|] eqn:EA; try discriminate.
    destruct (known k (h_spus s)); [|discriminate]. injection H as <-.
    split; cbn; try assumption; try lia; intros; lia.
  - destruct (h_at s) as [| |[|e l]|] eqn:EA; try discriminate. injection H as <-.
    split; cbn; try assumption; try lia; try discriminate. intros [E|E]; discriminate.
  - destruct (h_late s) as [|[k st] l]; [discriminate|]. injection H as <-.
    destruct (known k (h_spus s)).
    + split; cbn; try assumption; try lia; intros; lia.
    + split; cbn; assumption.
  - destruct (h_at s) as [| |[|e l]|] eqn:EA; try discriminate. injection H as <-.
    split; cbn; try assumption; try discriminate.
    intros _ ES. apply SL; [left; reflexivity|exact ES].
  - destruct (h_at s) eqn:EA; try (destruct a; discriminate).
    destruct (lstep Offsets (h_value s) a (h_lis s)) as [[l r]|] eqn:E; [|destruct a; discriminate].
    assert (E' : s' = mkH (h_map s) (h_value s) (h_conns s) (h_spus s) (h_epoch s)
                       (match r with Some _ => CSync | None => CListen end) (h_seen s) l (h_late s)).
    { destruct a; congruence. }
    subst s'. split; cbn; try assumption.
    + intros l0 E0. destruct r; discriminate.
    + intros _ ES. apply SL; [right; reflexivity|exact ES].
  - destruct (h_at s) eqn:EA; try discriminate.
    assert (E' : s' = mkH (h_map s) (h_value s) (h_conns s) (h_spus s) (h_epoch s) CSync (h_epoch s)
                   (mkL (l_last (h_lis s)) LOut) (h_late s)).
    { destruct (l_at (h_lis s)); try discriminate; (destruct (h_seen s <? h_epoch s); [|discriminate]; congruence). }
    subst s'. split; cbn; try assumption; try lia; try discriminate. intros [E0|E0]; discriminate.
  - injection H as <-. split; cbn; try assumption; try lia; intros; lia.
Qed.

Lemma seen_step : forall s a s', h_seen s <= h_epoch s -> hstep s a = Some s' -> h_seen s' <= h_epoch s'.
Proof.
  intros s a s' L H. destruct a; cbn in H.
  - destruct (known s0 (h_spus s)); [|discriminate]. injection H as <-. exact L.
  - destruct (nth_error (h_conns s) i) as [[k w]|]; [|discriminate]. destruct w; try discriminate.
    injection H as <-. exact L.
  - unfold task_step in H. destruct (nth_error (h_conns s) i) as [c|]; [|discriminate].
    destruct (k_at c); try discriminate; injection H as <-; exact L.
  - destruct (known s0 (h_spus s)); [discriminate|]. injection H as <-. cbn. lia.
  - destruct (known s0 (h_spus s)); [|discriminate]. injection H as <-. cbn. lia.
  - destruct (h_at s); try discriminate. injection H as <-. exact L.
  - destruct (h_at s); try discriminate. injection H as <-. exact L.
  - destruct (h_at s) as [| |[|[k st] l]|]; try discriminate.
    destruct (known k (h_spus s)); [|discriminate]. injection H as <-. cbn. lia.
  - destruct (h_at s) as [| |[|e l]|]; try discriminate. injection H as <-. cbn. lia.
  - destruct (h_late s) as [|[k st] l]; [discriminate|]. injection H as <-.
    destruct (known k (h_spus s)); cbn; lia.
  - destruct (h_at s) as [| |[|e l]|]; try discriminate. injection H as <-. exact L.
  - destruct (h_at s); try (destruct a; discriminate).
    destruct (lstep Offsets (h_value s) a (h_lis s)) as [[l r]|]; [|destruct a; discriminate].
    destruct a; try discriminate; injection H as <-; exact L.
  - destruct (h_at s); try discriminate.
    destruct (l_at (h_lis s)); try discriminate; (destruct (h_seen s <? h_epoch s); [|discriminate]; injection H as <-; cbn; lia).
  - injection H as <-. cbn. lia.
Qed.

Lemma after_resync : forall spus s s1 s2 l k st,
  runs one_connection (started spus) s -> Forall at_rest (h_conns s) ->
  hstep s HResync = Some s1 -> Forall alone l -> hexec s1 l = Some s2 -> quiet s2 ->
  In (k, st) (h_spus s2) -> registered s2 k ->
  (connected s2 k -> st = SOnline) /\ (~ connected s2 k -> st = SOffline).
Proof.
  intros spus s s1 s2 l k st R REST ST F HX (_ & AT & _ & SEEN) HI (c & HC & EK).
  pose proof (runs_table _ _ _ R) as [UP NONE].
  pose proof (runs_single _ _ _ (fun s H => H) R) as SI.
  assert (LE : h_seen s <= h_epoch s).
  { clear - R. revert s R. apply runs_inv; [cbn; lia|]. intros s a s' L _ ST. eapply seen_step; eassumption. }
  cbn in ST. injection ST as <-.
  assert (SV : sync_inv (h_map s) (h_conns s) s2).
  { eapply (exec_inv (sync_inv (h_map s) (h_conns s))); [apply sync_step, REST| |exact F|exact HX].
    split; cbn; try reflexivity; intros; lia. }
  destruct SV as [SM SC SS SR SL].
  assert (CL : agree_with (h_map s) (h_spus s2)) by (apply SL; [right; exact AT|lia]).
  rewrite SC in HC. unfold connected. rewrite SC.
  destruct (h_map s k) as [b|] eqn:EM.
  - pose proof (CL _ _ _ HI EM) as ->. destruct b.
    + split; [reflexivity|]. intros NC. exfalso. apply NC.
      destruct (UP _ EM) as (i & [k' w] & N & E' & U). cbn in E'. subst k'.
      destruct (rest_nth _ _ _ REST N) as [E|E]; cbn in E; subst w; [|destruct U].
      eapply nth_error_In, N.
    + split; [|reflexivity]. intros C. exfalso.
      apply in_nth in C as [i N]. specialize (SI _ _ N I). cbn in SI. congruence.
  - exfalso. apply in_nth in HC as [i N]. specialize (NONE _ EM _ _ N EK).
    destruct (rest_nth _ _ _ REST N) as [E|E]; congruence.
Qed.

(** what agrees with the table stays as it is *)
Record same_inv (m : Z -> option bool) (cs : list conn) (l : list (Z * sstatus)) (s : health) : Prop := {
  sa_map : h_map s = m;
  sa_conns : h_conns s = cs;
  sa_spus : h_spus s = l;
  sa_late : h_late s = [];
  sa_at : h_at s = CSync \/ h_at s = CRead l \/ h_at s = CWrite [] \/ h_at s = CListen }.

Lemma same_step : forall m cs l, Forall at_rest cs -> sync_changes m l = [] ->
  forall s a s', same_inv m cs l s -> alone a -> hstep s a = Some s' -> same_inv m cs l s'.
Proof.
  intros m cs l REST OK s a s' [SM SC SP SL SA] AL H. destruct a; cbn in AL; try contradiction; cbn in H.
  - exfalso. eapply rest_task; [|exact H]. rewrite SC. exact REST.
  - destruct (h_at s) eqn:EA; try discriminate. injection H as <-. split; cbn; try assumption. rewrite SP. auto.
  - destruct (h_at s) as [|l0| |] eqn:EA; try discriminate. injection H as <-. split; cbn; try assumption.
    destruct SA as [E|[E|[E|E]]]; try discriminate. injection E as ->. rewrite SM, OK. auto.
  - destruct SA as [E|[E|[E|E]]]; rewrite E in H; discriminate.
  - destruct SA as [E|[E|[E|E]]]; rewrite E in H; discriminate.
  - rewrite SL in H. discriminate.
  - destruct (h_at s) as [| |[|e l0]|] eqn:EA; try discriminate. injection H as <-. split; cbn; auto.
  - destruct (h_at s) eqn:EA; try (destruct a; discriminate).
    destruct (lstep Offsets (h_value s) a (h_lis s)) as [[l0 r]|] eqn:E; [|destruct a; discriminate].
    destruct a; try discriminate; injection H as <-; (split; cbn; try assumption; destruct r; auto).
  - destruct (h_at s) eqn:EA; try discriminate.
    destruct (l_at (h_lis s)); try discriminate; (destruct (h_seen s <? h_epoch s); [|discriminate]; injection H as <-; split; cbn; auto).
  - injection H as <-. split; cbn; assumption.
Qed.

Lemma stays : forall s, Forall at_rest (h_conns s) -> h_at s = CListen -> h_late s = [] ->
  sync_changes (h_map s) (h_spus s) = [] ->
  for_good s (fun s' => h_conns s' = h_conns s /\ h_spus s' = h_spus s).
Proof.
  intros s REST AT LATE OK l s' F H.
  destruct (exec_inv _ (same_step _ _ _ REST OK) s (Build_same_inv _ _ _ s eq_refl eq_refl eq_refl LATE (or_intror (or_intror (or_intror AT)))) l s' F H).
  auto.
Qed.

(** *** the old connection ends after the new one has come *)
Definition overlap : list haction :=
  [HConnect 1] ++ tasks 0 ++ [HConnect 1; HTask 1; HEnd 0] ++ tasks 0 ++
  [HClone; HReadTable; HWrite; HWritten; HStoreChange] ++ look ++ [HListenStep Check] ++ look ++ to_wait.
Lemma reconnect_refuted : exists spus s k,
  runs one_increment (started spus) s /\ quiet s /\
  for_good s (fun s' => In (k, SOffline) (h_spus s') /\ connected s' k).
Proof.
  exists [(1, SInit)].
  destruct (checked increments_ok (started [(1, SInit)]) overlap) as [s|] eqn:E; [|vm_compute in E; discriminate].
  exists s, 1.
  split. { eapply checked_runs; [exact increments_sound|apply runs_start, started_orderly|exact E]. }
  vm_compute in E. injection E as <-.
  split; [split; [apply rest_all; reflexivity|repeat split; cbn; lia]|].
  intros l s' F H. eapply stays in H; try eassumption; [|apply rest_all; reflexivity|reflexivity..].
  destruct H as [EC ES]. unfold connected. rewrite EC, ES. split; [left; reflexivity|right; left; reflexivity].
Qed.

(** *** two increments overlap *)
Definition lost : list haction :=
  [HConnect 1; HTask 0; HTask 0; HConnect 2] ++ tasks 1 ++ [HConnect 3] ++ tasks 2 ++
  [HClone; HReadTable; HWrite; HWrite; HWrite; HWritten; HStoreChange] ++ look ++ [HListenStep Check; HClone; HReadTable] ++
  [HTask 0; HTask 0; HEnd 2] ++ tasks 2 ++ [HWritten] ++ to_wait.
Lemma increments_refuted : exists spus s k,
  runs one_connection (started spus) s /\ quiet s /\ In (k, SOnline) (h_spus s) /\ registered s k /\ ~ connected s k.
Proof.
  exists [(1, SInit); (2, SInit); (3, SInit)].
  destruct (checked connections_ok (started [(1, SInit); (2, SInit); (3, SInit)]) lost) as [s|] eqn:E; [|vm_compute in E; discriminate].
  exists s, 3.
  split. { eapply checked_runs; [exact connections_sound|apply runs_start, started_orderly|exact E]. }
  vm_compute in E. injection E as <-.
  split; [split; [apply rest_all; reflexivity|repeat split; cbn; lia]|].
  split; [right; right; left; reflexivity|].
  split; [eexists; split; [right; right; left; reflexivity|reflexivity]|].
  intros [H|[H|[H|[]]]]; discriminate.
Qed.

(** *** a server that was up when the controller went down *)
Lemma restart_refuted : exists spus s k,
  runs orderly (started spus) s /\ quiet s /\
  for_good s (fun s' => In (k, SOnline) (h_spus s') /\ ~ registered s' k /\ ~ connected s' k).
Proof.
  exists [(1, SOnline)].
  destruct (checked orderly_b (started [(1, SOnline)]) (look ++ to_wait)) as [s|] eqn:E; [|vm_compute in E; discriminate].
  exists s, 1.
  split. { eapply checked_runs; [exact orderly_sound|apply runs_start, started_orderly|exact E]. }
  vm_compute in E. injection E as <-.
  split; [split; [apply rest_all; reflexivity|repeat split; cbn; lia]|].
  intros l s' F H. eapply stays in H; try eassumption; [|apply rest_all; reflexivity|reflexivity..].
  destruct H as [EC ES]. unfold connected, registered. rewrite EC, ES.
  split; [left; reflexivity|]. split; [intros (c & [] & _)|intros []].
Qed.

Lemma day_ok : exists s, runs orderly (started three) s /\ quiet s /\
  h_spus s = [(1, SOnline); (2, SOffline); (3, SOnline)] /\
  connected s 1 /\ registered s 2 /\ ~ connected s 2 /\ ~ registered s 3.
Proof.
  destruct (checked orderly_b (started three) (day ++ evening)) as [s|] eqn:E; [|vm_compute in E; discriminate].
  exists s. split. { eapply checked_runs; [exact orderly_sound|apply runs_start, started_orderly|exact E]. }
  vm_compute in E. injection E as <-.
  split; [split; [apply rest_all; reflexivity|repeat split; cbn; lia]|].
  split; [reflexivity|].
  split; [right; right; left; reflexivity|].
  split; [eexists; split; [right; left; reflexivity|reflexivity]|].
  split; [intros [H|[H|[H|[]]]]; discriminate|].
  intros (c & H & E). destruct H as [<-|[<-|[<-|[]]]]; discriminate.
Qed.

(* the lost change of [lost] is found after a resync *)
Definition found : list haction :=
  [HStoreChange; HClone; HReadTable; HWrite; HWritten; HStoreChange] ++ look ++ to_wait.
Lemma resync_ok : exists s s1 s2, runs one_connection (started [(1, SInit); (2, SInit); (3, SInit)]) s /\
  quiet s /\ h_spus s = [(1, SOnline); (2, SOnline); (3, SOnline)] /\ ~ connected s 3 /\
  hstep s HResync = Some s1 /\ hexec s1 found = Some s2 /\ quiet s2 /\
  h_spus s2 = [(1, SOnline); (2, SOnline); (3, SOffline)].
Proof.
  destruct (checked connections_ok (started [(1, SInit); (2, SInit); (3, SInit)]) lost) as [s|] eqn:E; [|vm_compute in E; discriminate].
  destruct (hstep s HResync) as [s1|] eqn:E1; [|discriminate].
  destruct (hexec s1 found) as [s2|] eqn:E2.
  2: { vm_compute in E. injection E as <-. vm_compute in E1. injection E1 as <-. vm_compute in E2. discriminate. }
  exists s, s1, s2.
  split. { eapply checked_runs; [exact connections_sound|apply runs_start, started_orderly|exact E]. }
  vm_compute in E. injection E as <-. vm_compute in E1. pose proof E1 as E1'. injection E1' as <-.
  pose proof E2 as E2'. vm_compute in E2'. injection E2' as <-.
  split; [split; [apply rest_all; reflexivity|repeat split; cbn; lia]|].
  split; [reflexivity|].
  split; [intros [H|[H|[H|[]]]]; discriminate|].
  split; [exact E1|]. split; [exact E2|].
  split; [split; [apply rest_all; reflexivity|repeat split; cbn; lia]|reflexivity].
Qed.
