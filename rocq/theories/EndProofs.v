(** One partition from end to end: the runs of the parts. *)
From Verif Require Import ListFacts StorageSpec StorageProofs ReplicaProofs ClusterProofs RecordSpec RecordProofs StorageClaims ProduceSpec ProduceClaims ProducerSpec ProducerProofs ProducerClaims.
From Verif Require Import StreamSpec StreamProofs StreamClaims EndModel EndSpec.

(** * Batches of producers *)
Definition good (b : batch bytes) : Prop := raw_batch_ok b /\ honest b /\ 0 < records_len b.
Lemma wire_good a b : client_ok a -> In b (on_wire a) -> good b /\ zlen (carried b) = records_len b.
Proof.
  intros (T & KO & HT & OK) IN. unfold on_wire in IN. apply in_concat in IN as (q & Hq & Hb).
  destruct (prun (cl_conf a) producer0 (cl_events a)) as [st os] eqn:R.
  assert (final a = st) as E by (unfold final; rewrite R; reflexivity). rewrite E in Hq.
  destruct (INV_run _ T _ KO ltac:(lia) OK _ _ _ _ _ (INV_start _ T KO) R) as (done & IV).
  destruct (wire_done _ _ _ _ _ _ _ IV Hq Hb) as (m & IM & ->). pose proof (I_done _ _ _ _ _ IV) as D. rewrite Forall_forall in D. specialize (D _ IM).
  pose proof (mb_records_len _ _ _ KO D) as RL. pose proof (mb_count _ _ _ KO D) as CN.
  destruct (mb_memory _ _ _ KO HT D) as (mm & EM & ER).
  split; [split; [apply to_raw_ok; eapply mb_batch_ok; eassumption|split; [|lia]]|].
  - exists mm. split; [exact EM|]. rewrite ER, RL. reflexivity.
  - rewrite (mb_carried _ _ _ KO HT D), RL. unfold zlen. rewrite map_length. reflexivity.
Qed.

(** * Handling a batch *)
Definition stored_batches (A : list arrival) : list (batch bytes) := map v_batch (filter v_stored A).
Lemma waits leo looks : wait_hw leo looks = NoError \/ wait_hw leo looks = RequestTimedOut.
Proof. induction looks as [|x t IH]; cbn [wait_hw]; [right; reflexivity|]. destruct (leo <=? get_hw (l_store x)); [left; reflexivity|exact IH]. Qed.
Lemma serve_step c iso now isr comp first later r H i b r' v : config_ok c -> logged c r H -> good b -> room r [b] ->
  serve c iso now isr comp first later r i b = (r', v) ->
  v_from v = i /\ v_batch v = b
  /\ (r' = r \/ exists upd, exec c r (Write now [b] upd) = Done r' /\ stored_by (Write now [b] upd) r r' (if v_stored v then number (get_leo r) [b] else []))
  /\ (r' = r -> v_stored v = false)
  /\ (p_code (v_answer v) = NoError -> v_stored v = true /\ p_base (v_answer v) = get_leo r)
  /\ (v_stored v = true -> In (p_code (v_answer v)) [NoError; RequestTimedOut; NotLeaderForPartition]).
Proof.
  intros CO LG (OK & HO & PL) RM S. unfold serve in S.
  destruct (produce_partition c now unchanged unchanged (Some (mkLeader r isr comp)) [b]) as [ld res] eqn:PP. inversion S; subst r' v; clear S.
  cbn [v_from v_batch v_stored v_answer]. split; [reflexivity|]. split; [reflexivity|].
  assert (total [b] = records_len b) as TB by (cbn [total]; lia).
  assert (Forall raw_batch_ok [b]) as OKl by (constructor; [assumption|constructor]).
  pose proof LG as (old & L & EH & IV & _).
  assert (forall r1 upd, exec c r (Write now [b] upd) = Done r1 ->
    stored_by (Write now [b] upd) r r1 (if get_leo r <? get_leo r1 then number (get_leo r) [b] else [])) as ST.
  { intros r1 upd EX. destruct (ReplicaProofs.step c r L (Write now [b] upd) r1 CO IV ltac:(split; assumption) EX) as (L' & I' & dropped & kept & new & _ & _ & _ & C2 & AD & _).
    cbn [added_by] in AD. destruct AD as (n & ->). destruct n as [|n]; cbn [firstn] in C2.
    - cbn [number chain] in C2. rewrite C2, Z.ltb_irrefl. split; [cbn [chain]; congruence|]. exists 0%nat. reflexivity.
    - rewrite firstn_nil in C2. assert (get_leo r1 = get_leo r + records_len b) as LE.
      { cbn [number chain] in C2. destruct C2 as (_ & _ & C2). rewrite with_base_len in C2. lia. }
      replace (get_leo r <? get_leo r1) with true by lia. split; [exact C2|]. exists 1%nat. reflexivity. }
  assert (reached_like : p_code res = NoError -> exists ld1, ld = Some ld1 /\ write_recordset c now r [b] (isr =? 1) = (l_store ld1, None) /\ p_base res = get_leo r).
  { intros E. destruct (produce_ok c now unchanged unchanged (mkLeader r isr comp) [b] [b] [b] ld res eq_refl ltac:(lia) eq_refl ltac:(lia) PP E) as (ld1 & A1 & A2 & A3 & _). exists ld1. auto. }
  assert (cases : ld = Some (mkLeader r isr comp) \/ exists ld1, ld = Some ld1 /\ l_store ld1 = fst (write_recordset c now r [b] (isr =? 1))).
  { unfold produce_partition, unchanged in PP. rewrite total_records_eq, TB in PP. replace (records_len b =? 0) with false in PP by lia.
    unfold handle_partition, write_record_set in PP. cbn [l_compression l_store l_isr] in PP. destruct comp as [alg|]; [|inversion PP; left; reflexivity].
    destruct (validate_records [b] alg); [|inversion PP; left; reflexivity]. rewrite total_records_eq, TB in PP. replace (records_len b =? 0) with false in PP by lia.
    destruct (write_recordset c now r [b] (isr =? 1)) as [r1 [e|]]; inversion PP; right; eexists; (split; [reflexivity|reflexivity]). }
  split; [|split; [|split]].
  - destruct cases as [->|(ld1 & -> & E)]; [left; reflexivity|]. right. exists (isr =? 1). assert (exec c r (Write now [b] (isr =? 1)) = Done (l_store ld1)) as EX by (cbn [exec]; rewrite E; reflexivity).
    split; [exact EX|]. apply ST. exact EX.
  - intros E. rewrite E. apply Z.ltb_irrefl.
  - intros E. destruct (wait_kept _ _ _ _ E) as (E1 & EB). destruct (reached_like E1) as (ld1 & -> & W & PB). rewrite EB. split; [|exact PB].
    destruct IV as (s0 & ls & act & EL & IA). destruct (write_recordset_at _ _ _ _ _ _ _ _ _ _ CO IA OKl RM W) as (n & ls' & act' & _ & _ & _ & LE & -> & _).
    rewrite firstn_all, TB in LE. lia.
  - intros E. assert (p_code res = NoError) as RC.
    { unfold produce_partition, unchanged in PP. rewrite total_records_eq, TB in PP. replace (records_len b =? 0) with false in PP by lia.
      unfold handle_partition, write_record_set in PP. cbn [l_compression l_store l_isr] in PP. destruct comp as [alg|]; [|inversion PP; subst ld; cbn [l_store] in E; lia].
      destruct (validate_records [b] alg); [|inversion PP; subst ld; cbn [l_store] in E; lia]. rewrite total_records_eq, TB in PP. replace (records_len b =? 0) with false in PP by lia.
      destruct (write_recordset c now r [b] (isr =? 1)) as [r1 [e|]] eqn:W; inversion PP; subst ld res; [|reflexivity]. cbn [l_store with_store] in E.
      destruct IV as (s0 & ls & act & EL & IA). destruct (write_recordset_at _ _ _ _ _ _ _ _ _ _ CO IA OKl RM W) as (n & ls' & act' & _ & _ & _ & LE & D & _).
      destruct D as [D|D]; [discriminate|]. cbn [length] in D. replace n with 0%nat in LE by lia. cbn [firstn total] in LE. lia. }
    unfold wait_for_ack. destruct iso; rewrite RC; [|left; reflexivity]. cbn [p_code]. destruct first as [x|]; [|right; right; left; reflexivity].
    destruct (waits (p_leo res) (x :: later)) as [->| ->]; [left; reflexivity|right; left; reflexivity].
Qed.

(** * Runs *)
Definition facts (n : Z) (v : arrival) : Prop :=
  (p_code (v_answer v) = NoError -> v_stored v = true /\ p_base (v_answer v) = n)
  /\ (v_stored v = true -> In (p_code (v_answer v)) [NoError; RequestTimedOut; NotLeaderForPartition]).
Definition linked (c : config) (p : params) (s : Z) (A : list arrival) (ph : phase) : Prop :=
  match ph with
  | Before r => hist c r (number 0 (stored_batches A))
  | Open y => exists r0 H0, hist c r0 H0 /\ s <= log_limit (p_iso p) r0 /\ run c p s r0 H0 (number 0 (stored_batches A)) y
  end.
Record kept (c : config) (p : params) (s : Z) (P : list client) (A : list arrival) (ph : phase) : Prop := {
  K_link : linked c p s A ph;
  K_good : Forall good (map v_batch A);
  K_from : forall i a, nth_error P i = Some a -> prefix_of (map v_batch (from i A)) (on_wire a);
  K_who : Forall (fun v => exists a, nth_error P (v_from v) = Some a) A;
  K_facts : forall B v C, A = B ++ v :: C -> facts (total (stored_batches B)) v;
}.

Lemma stored_app A B : stored_batches (A ++ B) = stored_batches A ++ stored_batches B.
Proof. unfold stored_batches. rewrite filter_app, map_app. reflexivity. Qed.
Lemma from_app i A B : from i (A ++ B) = from i A ++ from i B.
Proof. apply filter_app. Qed.
Lemma stored_good A : Forall good (map v_batch A) -> Forall good (stored_batches A).
Proof.
  rewrite !Forall_forall. intros H b IN. apply H. unfold stored_batches in IN. apply in_map_iff in IN as (v & <- & IV). apply in_map. apply filter_In in IV. tauto.
Qed.
Lemma linked_logged c p s A ph : config_ok c -> linked c p s A ph -> logged c (store_of ph) (number 0 (stored_batches A)).
Proof.
  intros CO. destruct ph as [r|y]; cbn [linked store_of]; [apply hist_logged; assumption|].
  intros (r0 & H0 & HI & _ & RN). eapply run_logged; [assumption|apply hist_logged; eassumption|eassumption].
Qed.
Lemma kept_leo c p s P A ph : config_ok c -> kept c p s P A ph -> get_leo (store_of ph) = total (stored_batches A).
Proof.
  intros CO K. pose proof (logged_chain _ _ _ (linked_logged _ _ _ _ _ CO (K_link _ _ _ _ _ _ K))) as CH.
  pose proof (number_chain (stored_batches A) 0) as N. rewrite Forall_forall in N.
  assert (forall b, In b (stored_batches A) -> 0 < records_len b) as PL.
  { intros b IN. pose proof (stored_good _ (K_good _ _ _ _ _ _ K)) as G. rewrite Forall_forall in G. apply G. assumption. }
  specialize (N PL). assert (forall l a e e', chain a l e -> chain a l e' -> e = e') as U.
  { clear. induction l as [|b l IH]; intros a e e' C1 C2; cbn [chain] in *; [congruence|]. eapply IH; [apply C1|apply C2]. }
  rewrite (U _ _ _ _ CH N). lia.
Qed.
Lemma same_log ph : with_log ph (store_of ph) = ph.
Proof. destruct ph as [r|y]; [reflexivity|]. destruct y. reflexivity. Qed.

Lemma world_kept c p s P A ph : config_ok c -> Forall client_ok P -> world c p s P A ph -> kept c p s P A ph.
Proof.
  intros CO CL W. induction W as [now|A ph i a b rest iso now isr comp first later r v W IH NP WI RM SV|A ph o r W IH OK BG EX|A r W IH SL|A y y' W IH MV].
  - constructor; cbn; try constructor.
    + intros i a E. exists (on_wire a). reflexivity.
    + destruct B; discriminate.
    + destruct B; discriminate.
  - pose proof (linked_logged _ _ _ _ _ CO (K_link _ _ _ _ _ _ IH)) as LG. pose proof (kept_leo _ _ _ _ _ _ CO IH) as LE.
    assert (client_ok a) as CA by (rewrite Forall_forall in CL; apply CL; eapply nth_error_In; eassumption).
    destruct (wire_good a b CA ltac:(rewrite WI; apply in_or_app; right; left; reflexivity)) as (G & _).
    destruct (serve_step _ _ _ _ _ _ _ _ _ _ _ _ _ CO LG G RM SV) as (VF & VB & ST & SAME & NE & CD).
    destruct IH as [KL KG KF KW KX]. constructor.
    + destruct (v_stored v) eqn:VS.
      * assert (stored_batches (A ++ [v]) = stored_batches A ++ [b]) as E by (rewrite stored_app; unfold stored_batches at 2; cbn [filter]; rewrite VS; cbn [map]; rewrite VB; reflexivity).
        destruct ST as [EQ|(upd & EX & ST)]; [specialize (SAME EQ); congruence|].
        destruct G as (OK & HO & PL). assert (op_ok c (store_of ph) (Write now [b] upd)) as OO by (split; [constructor; [assumption|constructor]|assumption]).
        destruct ph as [r0|y]; cbn [linked with_log store_of] in *; rewrite E, number_app, Z.add_0_l, <- LE.
        -- eapply hist_step with (a := Write now [b] upd); [exact KL|exact OO|cbn; constructor; [assumption|constructor]|exact EX|exact ST].
        -- destruct KL as (r0 & H0 & HI & SL & RN). exists r0, H0. split; [assumption|]. split; [assumption|].
           eapply run_store with (a := Write now [b] upd); [exact RN|exact OO|cbn; constructor; [assumption|constructor]|exact EX|exact ST].
      * assert (stored_batches (A ++ [v]) = stored_batches A) as E by (rewrite stored_app; unfold stored_batches at 2; cbn [filter]; rewrite VS; cbn [map]; apply app_nil_r).
        destruct ST as [->|(upd & EX & ST)]; [rewrite same_log; unfold linked in *; rewrite E; exact KL|].
        destruct G as (OK & HO & PL). assert (op_ok c (store_of ph) (Write now [b] upd)) as OO by (split; [constructor; [assumption|constructor]|assumption]).
        destruct ph as [r0|y]; cbn [linked with_log store_of] in *; rewrite E.
        -- rewrite <- (app_nil_r (number 0 _)). eapply hist_step with (a := Write now [b] upd); [exact KL|exact OO|cbn; constructor; [assumption|constructor]|exact EX|exact ST].
        -- destruct KL as (r0 & H0 & HI & SL & RN). exists r0, H0. split; [assumption|]. split; [assumption|].
           rewrite <- (app_nil_r (number 0 _)). eapply run_store with (a := Write now [b] upd); [exact RN|exact OO|cbn; constructor; [assumption|constructor]|exact EX|exact ST].
    + rewrite map_app. apply Forall_app. split; [assumption|]. cbn [map]. rewrite VB. constructor; [assumption|constructor].
    + intros j aj NJ. rewrite from_app, map_app. unfold from at 2. cbn [filter]. rewrite VF. destruct (Nat.eqb i j) eqn:IJ.
      * apply Nat.eqb_eq in IJ. subst j. rewrite NP in NJ. inversion NJ; subst aj. cbn [map]. rewrite VB. exists rest. rewrite WI, <- app_assoc. reflexivity.
      * cbn [map]. rewrite app_nil_r. apply KF. assumption.
    + apply Forall_app. split; [assumption|]. constructor; [|constructor]. exists a. rewrite VF. assumption.
    + intros B w C E. destruct C as [|x C].
      * apply app_inj_tail in E as (<- & <-). unfold facts. rewrite <- LE. split; assumption.
      * destruct (exists_last (l := x :: C)) as (C' & z & EC); [discriminate|]. rewrite EC in E. rewrite app_comm_cons, app_assoc in E. apply app_inj_tail in E as (E & _). eapply KX. exact E.
  - destruct IH as [KL KG KF KW KX]. constructor; try assumption.
    assert (stored_by o (store_of ph) r []) as ST.
    { pose proof (linked_logged _ _ _ _ _ CO KL) as (old & L & EH & IV & _).
      destruct (ReplicaProofs.step c (store_of ph) L o r CO IV OK EX) as (L' & I' & dropped & kpt & new & _ & _ & _ & C2 & AD & _).
      destruct o; cbn [added_by background] in *; try contradiction; try (subst new; split; [exact C2|reflexivity]).
      destruct ph; cbn in BG; contradiction. }
    destruct ph as [r0|y]; cbn [linked with_log store_of] in *.
    + rewrite <- (app_nil_r (number 0 _)). eapply hist_step; [exact KL|exact OK| |exact EX|exact ST]. destruct o; cbn [background] in BG; try exact BG; contradiction.
    + destruct KL as (r0 & H0 & HI & SL & RN). exists r0, H0. split; [assumption|]. split; [assumption|].
      rewrite <- (app_nil_r (number 0 _)). eapply run_store; [exact RN|exact OK| |exact EX|exact ST]. destruct o; cbn [background] in BG; try exact BG; contradiction.
  - destruct IH as [KL KG KF KW KX]. constructor; try assumption. cbn [linked] in *. exists r, (number 0 (stored_batches A)). split; [assumption|]. split; [assumption|]. constructor.
  - destruct IH as [KL KG KF KW KX]. constructor; try assumption. cbn [linked] in *. destruct KL as (r0 & H0 & HI & SL & RN). exists r0, H0. split; [assumption|]. split; [assumption|].
    eapply run_move; eassumption.
Qed.
