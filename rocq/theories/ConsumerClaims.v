(** Bounded reads and reconnection. *)
From Coq Require Import Sorting.Sorted.
From Verif Require Import StorageSpec RecordSpec RecordProofs StorageProofs ReplicaProofs StorageClaims ClusterProofs ReplicationClaims ListFacts.
From Verif Require Import ConsumerModel ConsumerSpec ConsumerProofs StreamModel StreamProofs StreamClaims StreamSpec.

(** * The records of a log are numbered without gaps *)
Fixpoint consecutive (a : Z) (l : list (Z * rec)) : Prop :=
  match l with [] => True | x :: t => fst x = a /\ consecutive (a + 1) t end.
Lemma consecutive_app A : forall a B, consecutive a A -> consecutive (a + zlen A) B -> consecutive a (A ++ B).
Proof.
  induction A as [|x A IH]; intros a B CA CB; [unfold zlen in CB; cbn in CB; replace a with (a + 0) by lia; exact CB|].
  cbn [app consecutive] in *. destruct CA as (E & CA). split; [assumption|]. apply IH; [assumption|]. replace (a + 1 + zlen A) with (a + zlen (x :: A)); [assumption|]. unfold zlen. cbn [length]. lia.
Qed.
Lemma number_records_consecutive l : forall o, consecutive o (number_records o l) /\ zlen (number_records o l) = zlen l.
Proof.
  induction l as [|r l IH]; intros o; [split; reflexivity|]. destruct (IH (o + 1)) as (A & B). cbn [number_records consecutive fst]. split; [auto|]. unfold zlen in *. cbn [length]. lia.
Qed.
Lemma log_consecutive H : forall a e, chain a H e -> Forall honest H -> consecutive a (flat_map records_of H) /\ zlen (flat_map records_of H) = e - a.
Proof.
  induction H as [|b H IH]; intros a e CH HO; [cbn in *; split; [exact I|unfold zlen; cbn; lia]|]. cbn [chain] in CH. destruct CH as (E & P & CH).
  inversion HO as [|? ? (m & T & L) HO']; subst. destruct (IH _ _ CH HO') as (CC & ZL). cbn [flat_map]. unfold records_of at 1 3. rewrite T.
  destruct (number_records_consecutive (b_recs m) (b_base b)) as (N1 & N2). split.
  - apply consecutive_app; [assumption|]. rewrite N2, L. assumption.
  - rewrite zlen_app, N2, ZL. lia.
Qed.
Lemma consecutive_filter l : forall a s q, consecutive a l ->
  filter (fun x => (s <=? fst x) && (fst x <? q)) l = ztake (q - Z.max a s) (zdrop (s - a) l).
Proof.
  induction l as [|x l IH]; intros a s q C; [rewrite zdrop_skipn, skipn_nil, ztake_firstn, firstn_nil; reflexivity|]. cbn [consecutive] in C. destruct C as (E & C). cbn [filter]. rewrite E, (IH (a + 1) s q C).
  destruct (s <=? a) eqn:SA; cbn [andb].
  - rewrite (zdrop_neg (s - a)), (zdrop_neg (s - (a + 1))) by lia. replace (Z.max a s) with a by lia. replace (Z.max (a + 1) s) with (a + 1) by lia.
    destruct (a <? q) eqn:AQ; [|rewrite !ztake_neg by lia; reflexivity].
    rewrite !ztake_firstn. replace (Z.to_nat (q - a)) with (S (Z.to_nat (q - (a + 1)))) by lia. reflexivity.
  - replace (Z.max a s) with s by lia. replace (Z.max (a + 1) s) with s by lia. f_equal. rewrite !zdrop_skipn. replace (Z.to_nat (s - a)) with (S (Z.to_nat (s - (a + 1)))) by lia. reflexivity.
Qed.
Lemma between_is H e s q : chain 0 H e -> Forall honest H -> 0 <= s ->
  between s q H = ztake (q - s) (zdrop s (flat_map records_of H)) /\ (s <= q <= e -> zlen (between s q H) = q - s).
Proof.
  intros CH HO S0. destruct (log_consecutive H 0 e CH HO) as (C & Z). unfold between. rewrite (consecutive_filter _ 0 s q C).
  replace (Z.max 0 s) with s by lia. replace (s - 0) with s by lia. split; [reflexivity|]. intros B. rewrite zlen_ztake, zlen_zdrop, Z. lia.
Qed.

(** * Bounded reads *)
Definition is_rec (i : item) : bool := match i with Rec _ => true | ErrItem => false end.
Definition handed (l : list item) : Z := zlen (filter is_rec l).
Lemma handed_app a b : handed (a ++ b) = handed a + handed b.
Proof. unfold handed. rewrite filter_app. apply zlen_app. Qed.
Lemma handed_entries l k : map entry l = map Some k -> handed l = zlen k.
Proof.
  revert k. induction l as [|i l IH]; intros [|x k] E; try discriminate; [reflexivity|]. cbn [map] in E. inversion E as [[E1 E2]]. specialize (IH k E2).
  unfold handed in *. destruct i; [|discriminate E1]. cbn [filter is_rec]. unfold zlen in *. cbn [length]. lia.
Qed.
Lemma handed_none i : entry i = None -> handed [i] = 0.
Proof. destruct i; [discriminate|reflexivity]. Qed.

(** A response in which the records shown are those counted. *)
Definition good (s : Z) (x : reply) : Prop := x = Failure \/ handed (items s x) = reply_count x.
Lemma counts B : Forall honest B -> fold_right (fun b n => records_len b + n) 0 (map (received raw_codec) B) = zlen (flat_map records_of B).
Proof.
  induction B as [|b B IH]; intros HO; [reflexivity|]. inversion HO as [|? ? (m & T & L) HO']; subst. cbn [map fold_right flat_map]. rewrite zlen_app, IH by assumption. f_equal.
  change (records_len (received raw_codec b)) with (records_len b). unfold records_of. rewrite T. rewrite (proj2 (number_records_consecutive _ _)), L. reflexivity.
Qed.

Section Bounded.
  Context (c : config) (p : params) (s : Z) (CO : config_ok c) (S0 : 0 <= s) (SM : p_sm p = None).
  Context (r0 : replica) (H0 : list (batch bytes)) (HI : hist c r0 H0) (SL : s <= log_limit (p_iso p) r0).

  Lemma brun_run H b : brun c p s r0 H0 H b -> run c p s r0 H0 H (b_sys b).
  Proof.
    intros R. induction R as [|H b b' R IH MV|H b a r' new R IH OK LV EX ST]; [constructor| |].
    - eapply run_move; [exact IH|]. destruct MV; cbn; try (constructor; assumption). unfold take_reply. destruct (y_net (b_sys b)) eqn:E; [contradiction|]. cbn. apply m_reply. congruence.
    - cbn. eapply run_store; eassumption.
  Qed.
  Lemma sent_good H y pos : run c p s r0 H0 H y -> one_response c p s (y_store y) H -> aligned s H -> y_pc y = Sending pos ->
    Forall (good s) (y_net y) -> Forall (good s) (y_net (do_send p y pos)).
  Proof.
    intros RN DM AL PC G. destruct (plain_run c p s CO S0 SM _ _ _ _ HI SL RN DM) as (LG & _ & _ & PH).
    destruct PH as [pos' E1 E2 E3 E4 E5 E6 E7|pos' E1|pos' q x E1|q E1|q E1|pos' E1|pos' o E1]; try congruence. assert (pos' = pos) as -> by congruence.
    unfold do_send. destruct (Z.lt_ge_cases pos (get_log_start (y_store y))) as [LT|GE].
    - assert (send_back p (y_store y) pos = None) as ->.
      { unfold send_back. destruct LG as (old & L & _ & I & _). rewrite (read_below c _ L pos _ _ I LT). reflexivity. }
      cbn. apply Forall_app. split; [assumption|]. repeat constructor.
    - assert (c_seg_max c <= p_max p \/ zlen (encs (batches_between pos (get_leo (y_store y)) H)) <= p_max p) as DM'.
      { destruct DM as [DM|DM]; [left; assumption|right]. pose proof (logged_chain _ _ _ LG) as CH.
        assert (log_limit (p_iso p) (y_store y) <= get_leo (y_store y)) by (destruct LG as (old & L & _ & _ & _ & HW & _); destruct (p_iso p); cbn; lia).
        rewrite <- (bb_join _ _ _ s pos _ CH) in DM by lia. unfold encs in DM. rewrite flat_map_app, zlen_app in DM. unfold encs. match type of DM with ?x + _ <= _ => assert (0 <= x) by apply zlen_nonneg end. lia. }
      assert (max_fetch p = p_max p) as MF by (unfold max_fetch; rewrite SM; reflexivity).
      destruct (read_slice c _ H (p_iso p) (max_fetch p) pos CO LG ltac:(lia) ltac:(rewrite MF; exact DM')) as (q & sl & p' & RD & EN & BY & Q & NE & EM & SZ & OK & _).
      unfold send_back. rewrite RD, BY, EN, SM. destruct (encs (batches_between pos q H)) as [|z zs] eqn:EE; [cbn; rewrite app_nil_r; assumption|].
      rewrite <- EE in *. cbn. apply Forall_app. split; [assumption|]. constructor; [|constructor]. right. cbn [items reply_count].
      assert (receive (encs (batches_between pos q H)) = map (received raw_codec) (batches_between pos q H)) as RC by (eapply receive_encs; [exact OK|exact SZ|destruct CO; lia]).
      assert (Forall honest (batches_between pos q H)) as HO.
      { destruct LG as (old & L & _ & _ & _ & _ & HO). apply Forall_forall. intros b IN. unfold batches_between in IN. apply filter_In in IN as (IN & _). rewrite Forall_forall in HO. auto. }
      rewrite RC, counts by assumption. apply handed_entries. rewrite items_sent by assumption. f_equal. apply filter_true.
      intros x IN. apply in_flat_map in IN as (b & IN & X). rewrite Forall_forall in HO. apply records_of_range in X; [|auto]. unfold batches_between in IN. apply filter_In in IN as (IN & F).
      specialize (AL b IN ltac:(lia)). lia.
  Qed.
  Lemma on_ack_net y : y_net (on_ack y) = y_net y /\ y_out (on_ack y) = y_out y.
  Proof. unfold on_ack. cbv zeta. destruct (_ =? -1); [auto|]. destruct (_ <=? _); auto. Qed.
  Lemma on_end_net y : y_net (on_end p y) = y_net y /\ y_out (on_end p y) = y_out y.
  Proof. unfold on_end. cbv zeta. destruct (y_known y); [|auto]. destruct (_ <=? _); auto. Qed.
  Lemma on_update_net y : y_net (on_update y) = y_net y /\ y_out (on_update y) = y_out y.
  Proof. unfold on_update. destruct (y_acks y); auto. Qed.
  Lemma do_send_out y pos : y_out (do_send p y pos) = y_out y.
  Proof. unfold do_send. destruct (send_back p (y_store y) pos) as [[[o w] x]|]; reflexivity. Qed.
  Lemma brun_back H b a r' new : run c p s r0 H0 H b -> op_ok c (y_store b) a -> live (y_store b) a -> exec c (y_store b) a = Done r' -> stored_by a (y_store b) r' new ->
    one_response c p s r' (H ++ new) -> one_response c p s (y_store b) H.
  Proof. intros RN OK LV EX ST. apply (any_back c p s CO _ _ a r' new); auto. eapply run_logged; [exact CO| |exact RN]. eapply hist_logged; eassumption. Qed.

  Lemma brun_counts H b : brun c p s r0 H0 H b -> one_response c p s (y_store (b_sys b)) H -> aligned s H ->
    Forall (good s) (y_net (b_sys b)) /\ (b_left b <= 0 -> get_hw r0 - s <= handed (y_out (b_sys b)))
    /\ (0 < b_left b -> b_left b = get_hw r0 - s - handed (y_out (b_sys b))).
  Proof.
    intros R. induction R as [|H b b' R IH MV|H b a r' new R IH OK LV EX ST]; intros DM AL.
    - cbn. split; [constructor|]. change (handed []) with 0. lia.
    - pose proof (brun_run _ _ R) as RN. destruct MV as [y n start PC|y n PC NE|y n PC NE|y n NE|b LE NE]; cbn [b_sys b_left] in *.
      + assert (y_store (do_send p y start) = y_store y) as ES by (apply (moves_store p s); constructor; assumption). rewrite ES in DM. destruct (IH DM AL) as (G & A).
        split; [eapply sent_good; eassumption|]. rewrite do_send_out. exact A.
      + assert (y_store (on_ack y) = y_store y) as ES by (apply (moves_store p s); constructor; assumption). rewrite ES in DM. destruct (on_ack_net y) as (-> & ->). auto.
      + assert (y_store (on_end p y) = y_store y) as ES by (apply (moves_store p s); constructor; assumption). rewrite ES in DM. destruct (on_end_net y) as (-> & ->). auto.
      + assert (y_store (on_update y) = y_store y) as ES by (apply (moves_store p s); constructor; assumption). rewrite ES in DM. destruct (on_update_net y) as (-> & ->). auto.
      + unfold take_reply in *. destruct (y_net (b_sys b)) as [|x t] eqn:EN; [contradiction|]. cbn [b_sys b_left] in *.
        assert (y_store (on_reply s (b_sys b)) = y_store (b_sys b)) as ES by (apply (moves_store p s); constructor; congruence). rewrite ES in DM. destruct (IH DM AL) as (G & _ & A). specialize (A LE).
        unfold on_reply. rewrite EN. cbn [y_net y_out]. inversion G as [|? ? GX GT]; subst. split; [assumption|]. rewrite handed_app.
        destruct GX as [->|GX]; [cbn [items]; rewrite (handed_none ErrItem eq_refl); lia|]. pose proof (zlen_nonneg (filter is_rec (items s x))). unfold handed in GX at 1. fold (handed (items s x)) in *.
        destruct x; cbn [items] in *; try (rewrite GX; lia). rewrite (handed_none ErrItem eq_refl). lia.
    - cbn [b_sys b_left set_store y_net y_out y_store] in *. apply IH; [|intros b' IN; apply AL; apply in_or_app; auto].
      eapply brun_back; eauto. apply brun_run; assumption.
  Qed.

  Lemma bounded_safe H b : brun c p s r0 H0 H b -> one_response c p s (y_store (b_sys b)) H -> aligned s H -> finished b ->
    exists q e, seen (b_sys b) = map Some (between s q H) ++ e /\ get_hw r0 <= q /\ s <= q <= log_limit (p_iso p) (y_store (b_sys b))
      /\ (e = [] \/ e = [None] /\ y_pc (b_sys b) = Ended /\ q < get_log_start (y_store (b_sys b))).
  Proof.
    intros R DM AL F. pose proof (brun_run _ _ R) as RN. destruct (brun_counts _ _ R DM AL) as (_ & A & _). specialize (A F).
    destruct (plain_safe c p s CO S0 SM _ _ _ _ HI SL RN DM) as (q & e & EQ & Q & D). exists q, e. split; [assumption|]. split; [|auto].
    destruct (plain_run c p s CO S0 SM _ _ _ _ HI SL RN DM) as (LG & _). pose proof (logged_chain _ _ _ LG) as CH. destruct LG as (old & L & EH & I & C0 & HW & HO).
    assert (q <= get_leo (y_store (b_sys b))) as QL by (destruct (p_iso p); cbn in Q; lia).
    destruct (between_is H _ s q CH HO S0) as (_ & Z). specialize (Z ltac:(lia)).
    assert (handed (y_out (b_sys b)) = zlen (between s q H)) as HE; [|lia].
    change (map entry (y_out (b_sys b)) = map Some (between s q H) ++ e) in EQ.
    apply map_eq_app in EQ as (o1 & o2 & EO & E1 & E2). rewrite EO, handed_app, (handed_entries _ _ E1).
    destruct D as [->|(-> & _)]; [destruct o2; [|discriminate]; change (handed []) with 0; lia|].
    destruct o2 as [|i [|j t]]; try discriminate. inversion E2 as [E3]. rewrite (handed_none i E3). lia.
  Qed.
  Lemma bounded_acc b : Acc (fun y' y => moves p s y y') (b_sys b) -> Acc (fun b' b => bmoves p s b b') b.
  Proof.
    intros A. remember (b_sys b) as y eqn:E. revert b E. induction A as [y _ IH]. intros b ->. constructor. intros b' MV. refine (IH (b_sys b') _ b' eq_refl).
    destruct MV; cbn; try (constructor; assumption). unfold take_reply. destruct (y_net (b_sys b)) eqn:E; [contradiction|]. cbn. apply m_reply. congruence.
  Qed.
  Lemma bounded_ends H b : brun c p s r0 H0 H b -> one_response c p s (y_store (b_sys b)) H -> aligned s H -> boundary (get_hw r0) H0 ->
    Acc (fun b' b => bmoves p s b b') b /\ ((forall b', ~ bmoves p s b b') -> finished b \/ y_pc (b_sys b) = Ended).
  Proof.
    intros R DM AL BD. pose proof (brun_run _ _ R) as RN. destruct (plain_ends c p s CO S0 SM _ _ _ _ HI SL RN DM) as (AC & STK). split; [apply bounded_acc; exact AC|].
    intros ST. destruct (Z.le_gt_cases (b_left b) 0) as [F|F]; [left; exact F|].
    destruct STK as [QU|E]; [|exfalso|right; exact E].
    - intros y' MV. destruct b as [y n]. cbn [b_sys b_left] in *. destruct MV as [y st PC|y PC NE|y PC NE|y NE|y NE].
      + exact (ST _ (bm_send p s _ _ _ PC)).
      + exact (ST _ (bm_ack p s _ _ PC NE)).
      + exact (ST _ (bm_end p s _ _ PC NE)).
      + exact (ST _ (bm_take p s (mkBounded y n) F NE)).
      + exact (ST _ (bm_update p s _ _ NE)).
    - destruct (plain_complete c p s CO S0 SM _ _ _ _ HI SL RN DM QU) as (q & EQ & Q & AL').
      destruct (brun_counts _ _ R DM AL) as (_ & _ & A). specialize (A F).
      destruct (plain_run c p s CO S0 SM _ _ _ _ HI SL RN DM) as (LG & _). pose proof (logged_chain _ _ _ LG) as CH. destruct LG as (old & L & EH & I & C0 & HW & HO).
      assert (q <= get_leo (y_store (b_sys b))) as QL by (destruct (p_iso p); cbn in Q; lia).
      destruct (between_is H _ s q CH HO S0) as (_ & Z). specialize (Z ltac:(lia)).
      change (map entry (y_out (b_sys b)) = map Some (between s q H)) in EQ. rewrite (handed_entries _ _ EQ) in A.
      assert (get_hw r0 <= q); [|lia]. destruct BD as [BD|(b0 & IN & BE)]; [lia|]. rewrite <- BE. 
      assert (incl H0 H /\ get_hw r0 <= get_hw (y_store (b_sys b))) as (INC & MON).
      { clear - RN CO HI S0. pose proof (hist_logged _ _ _ CO HI) as LG0. revert LG0. clear HI. induction RN as [|H y y' RN IH MV|H y a r' new RN IH OK LV EX ST]; intros LG0.
        - split; [apply incl_refl|cbn; lia].
        - rewrite (moves_store p s _ _ MV). auto.
        - destruct (IH LG0) as (A & B). split; [apply incl_appl; assumption|]. cbn.
          destruct (logged_step c _ H a r' new CO (run_logged c p s CO _ _ _ _ LG0 RN) OK ltac:(destruct a; cbn in *; auto) EX ST) as (_ & _ & _ & C). cbn in C. lia. }
      apply AL'; [apply INC; assumption|]. rewrite BE. destruct (p_iso p); cbn; lia.
  Qed.
End Bounded.

(** * Reconnection *)
Lemma consecutive_nth l : forall a k x, consecutive a l -> nth_error l k = Some x -> fst x = a + Z.of_nat k.
Proof.
  induction l as [|y l IH]; intros a k x C E; [destruct k; discriminate|]. cbn [consecutive] in C. destruct C as (F & C).
  destruct k as [|k]; cbn [nth_error] in E; [inversion E; subst; lia|]. rewrite (IH _ _ _ C E). lia.
Qed.
Lemma consecutive_inj l a x y : consecutive a l -> In x l -> In y l -> fst x = fst y -> x = y.
Proof.
  intros C IX IY E. apply In_nth_error in IX as (i & IX), IY as (j & IY). pose proof (consecutive_nth _ _ _ _ C IX). pose proof (consecutive_nth _ _ _ _ C IY).
  assert (i = j) as -> by lia. congruence.
Qed.
Lemma between_in H s q x : In x (between s q H) <-> In x (flat_map records_of H) /\ s <= fst x < q.
Proof. unfold between. rewrite filter_In. split; intros (A & B); (split; [exact A|lia]). Qed.
Lemma between_cut H e s m q : chain 0 H e -> Forall honest H -> 0 <= s -> m <= q -> between s m H = firstn (Z.to_nat (m - s)) (between s q H).
Proof.
  intros CH HO S0 MQ. rewrite (proj1 (between_is H e s m CH HO S0)), (proj1 (between_is H e s q CH HO S0)), !ztake_firstn, firstn_firstn. f_equal. lia.
Qed.
Lemma consecutive_skipn l : forall a k, consecutive a l -> consecutive (a + Z.of_nat k) (skipn k l).
Proof.
  induction l as [|y l IH]; intros a k C; [rewrite skipn_nil; exact I|]. destruct k as [|k]; [cbn [skipn]; rewrite Z.add_0_r; exact C|]. cbn [skipn]. cbn [consecutive] in C.
  replace (a + Z.of_nat (S k)) with (a + 1 + Z.of_nat k) by lia. apply IH. apply C.
Qed.
Lemma between_nth H e s q k x : chain 0 H e -> Forall honest H -> 0 <= s -> nth_error (between s q H) k = Some x -> fst x = s + Z.of_nat k.
Proof.
  intros CH HO S0 E. destruct (log_consecutive H 0 e CH HO) as (C & _). rewrite (proj1 (between_is H e s q CH HO S0)) in E. rewrite ztake_firstn, zdrop_skipn in E.
  assert (nth_error (skipn (Z.to_nat s) (flat_map records_of H)) k = Some x) as E'.
  { revert E. generalize (skipn (Z.to_nat s) (flat_map records_of H)). generalize (Z.to_nat (q - s)). clear. intros n l. revert k l. induction n as [|n IH]; intros k l; [destruct k; discriminate|].
    destruct l as [|y l]; [destruct k; discriminate|]. destruct k as [|k]; cbn; auto. }
  apply (consecutive_nth _ _ _ _ (consecutive_skipn _ _ (Z.to_nat s) C)) in E'. lia.
Qed.
Lemma between_grow H new a e s q : chain a new e -> Forall honest new -> q <= a -> between s q (H ++ new) = between s q H.
Proof.
  intros CN HN Q. unfold between. rewrite flat_map_app, filter_app, (filter_false _ (flat_map records_of new)), app_nil_r; [reflexivity|].
  intros x IN. apply in_flat_map in IN as (b & IN & X). rewrite Forall_forall in HN. apply records_of_range in X; [|auto]. apply (chain_in _ _ _ _ CN) in IN. lia.
Qed.
Lemma run_hist c p s r0 H0 H y : hist c r0 H0 -> run c p s r0 H0 H y -> hist c (y_store y) H.
Proof.
  intros HI RN. induction RN as [|H y y' RN IH MV|H y a r' new RN IH OK LV EX ST]; [exact HI|rewrite (moves_store p s _ _ MV); exact IH|].
  cbn. eapply hist_step; eauto. destruct a; cbn in *; auto.
Qed.
Definition all_out (s : Z) (y : sys) : list item := y_out y ++ flat_map (items s) (y_net y).
Lemma moves_ended p s y y' : moves p s y y' -> y_pc y' = Ended -> (exists pos, y_pc y = Sending pos) \/ y_pc y = Ended /\ all_out s y' = all_out s y.
Proof.
  intros MV. destruct MV as [y st PC|y PC NE|y PC NE|y NE|y NE]; intros E.
  - left. eauto.
  - exfalso. revert E. unfold on_ack. cbv zeta. destruct (_ =? -1); cbn; [congruence|]. destruct (_ <=? _); cbn; congruence.
  - exfalso. revert E. unfold on_end. cbv zeta. destruct (y_known y); cbn; [|congruence]. destruct (_ <=? _); cbn; congruence.
  - right. revert E. unfold on_reply, all_out. destruct (y_net y); [contradiction|]. cbn. intros E. split; [assumption|]. rewrite app_assoc. reflexivity.
  - right. revert E. unfold on_update, all_out. destruct (y_acks y); [contradiction|]. cbn. auto.
Qed.

Section Reader.
  Context (c : config) (p : params) (s0 : Z) (CO : config_ok c) (S0 : 0 <= s0) (SM : p_sm p = None) (FIT : c_seg_max c <= p_max p).
  Notation lim r := (log_limit (p_iso p) r).
  Definition gone (r : replica) (x : Z * rec) : Prop := fst x < get_log_start r.

  (** The position [M] to read next, [N] where the connection started. *)
  Record RI (H : list (batch bytes)) (n : conn) (next : option Z) (G : list (Z * rec)) (M : Z) : Prop := mkRI {
    ri_conn : exists r1 H1, hist c r1 H1 /\ 0 <= n_start n <= lim r1 /\ run c p (n_start n) r1 H1 H (n_sys n);
    ri_range : get_log_start (y_store (n_sys n)) <= get_hw (y_store (n_sys n));
    ri_pos : M = n_start n + Z.of_nat (n_taken n) /\ s0 <= M <= lim (y_store (n_sys n));
    ri_next : next = Some M \/ next = None /\ M = s0 /\ n_taken n = O;
    ri_taken : map entry (firstn (n_taken n) (y_out (n_sys n))) = map Some (between (n_start n) M H);
    ri_sorted : StronglySorted (fun x y => fst x < fst y) G;
    ri_sound : Forall (fun x => In x (flat_map records_of H) /\ s0 <= fst x < M) G;
    ri_complete : forall x, In x (flat_map records_of H) -> s0 <= fst x < M -> In x G \/ gone (y_store (n_sys n)) x;
    ri_ended : y_pc (n_sys n) = Ended -> n_avail n <= get_log_start (y_store (n_sys n))
      /\ exists q, map entry (all_out (n_start n) (n_sys n)) = map Some (between (n_start n) q H) ++ [None] /\ n_start n <= q < n_avail n
  }.
  Definition R1 (x : list (list (batch bytes)) * reader) : Prop :=
    exists H n M, fst x = [H] /\ d_conns (snd x) = [n] /\ Forall (fun y => fst y = O) (d_given (snd x))
      /\ RI H n (d_next (snd x)) (map snd (d_given (snd x))) M.

  Lemma lim_le r H : logged c r H -> lim r <= get_leo r /\ get_hw r <= lim r.
  Proof. intros (old & L & _ & _ & _ & HW & _). destruct (p_iso p); cbn; lia. Qed.

  Lemma R1_open r H s G next : hist c r H -> s0 <= s <= lim r -> get_log_start r <= get_hw r ->
    (next = Some s \/ next = None /\ s = s0) ->
    StronglySorted (fun x y => fst x < fst y) G -> Forall (fun x => In x (flat_map records_of H) /\ s0 <= fst x < s) G ->
    (forall x, In x (flat_map records_of H) -> s0 <= fst x < s -> In x G \/ gone r x) ->
    RI H (open_conn r s) next G s.
  Proof.
    intros HI SL LH NX SO SN CP. constructor; cbn; auto.
    - exists r, H. split; [assumption|]. split; [lia|]. constructor.
    - lia.
    - destruct NX as [NX|NX]; auto. tauto.
    - replace (between s s H) with (@nil (Z * rec)); [reflexivity|]. symmetry. apply filter_false. intros x _. lia.
    - discriminate.
  Qed.

  Lemma RI_facts H n next G M : RI H n next G M -> exists L, L = y_store (n_sys n) /\ logged c L H /\ hist c L H /\ chain 0 H (get_leo L) /\ Forall honest H
    /\ one_response c p (n_start n) L H.
  Proof.
    intros R. destruct (ri_conn _ _ _ _ _ R) as (r1 & H1 & HI & B & RN). eexists. split; [reflexivity|].
    pose proof (run_hist _ _ _ _ _ _ _ HI RN) as HI'. pose proof (hist_logged _ _ _ CO HI') as LG. split; [exact LG|]. split; [exact HI'|]. split; [apply (logged_chain c); assumption|].
    split; [destruct LG as (? & ? & _ & _ & _ & _ & HO); exact HO|]. left. exact FIT.
  Qed.

  Lemma RI_conn H n next G M y : RI H n next G M -> moves p (n_start n) (n_sys n) y -> RI H (conn_move n y) next G M.
  Proof.
    intros R MV. destruct (RI_facts _ _ _ _ _ R) as (L & EL & LG & HI & CH & HO & DM). pose proof (moves_store p _ _ _ MV) as ES.
    destruct R as [(r1 & H1 & HI1 & B & RN) RG (P1 & P2) NX TK SO SN CP ED]. constructor; cbn [conn_move n_start n_sys n_taken n_avail]; try rewrite ES; auto.
    - exists r1, H1. split; [assumption|]. split; [assumption|]. eapply run_move; eassumption.
    - (* output only grows *)
      assert (exists t, y_out y = y_out (n_sys n) ++ t) as (t & ->).
      { destruct MV as [z st PC|z PC NE|z PC NE|z NE|z NE].
        - exists []. rewrite do_send_out, app_nil_r. reflexivity.
        - exists []. rewrite (proj2 (on_ack_net z)), app_nil_r. reflexivity.
        - exists []. rewrite (proj2 (on_end_net p z)), app_nil_r. reflexivity.
        - unfold on_reply. destruct (y_net z); [contradiction|]. cbn. eexists. reflexivity.
        - exists []. rewrite (proj2 (on_update_net z)), app_nil_r. reflexivity. }
      rewrite <- TK. f_equal. rewrite firstn_app. replace (n_taken n - length (y_out (n_sys n)))%nat with O; [rewrite app_nil_r; reflexivity|].
      apply (f_equal (@length _)) in TK. rewrite !map_length, firstn_length in TK.
      destruct (between_is H _ (n_start n) M CH HO ltac:(lia)) as (_ & Z). assert (M <= get_leo L) as ML by (pose proof (lim_le _ _ LG); subst L; lia). specialize (Z ltac:(lia)). unfold zlen in Z. lia.
    - intros E. destruct (moves_ended _ _ _ _ MV E) as [(pos & PC)|(PC & AO)].
      + rewrite PC. split; [lia|].
        assert (run c p (n_start n) r1 H1 H y) as RN' by (eapply run_move; eassumption).
        assert (one_response c p (n_start n) (y_store y) H) as DM' by (left; exact FIT).
        destruct (plain_run c p (n_start n) CO ltac:(lia) SM _ _ _ _ HI1 ltac:(lia) RN' DM') as (LG' & _ & _ & PH).
        assert (y = do_send p (n_sys n) pos) as EY.
        { destruct MV as [z st PC'|z PC' NE|z PC' NE|z NE|z NE]; try congruence.
          - exfalso. revert E. unfold on_reply. destruct (y_net z); [contradiction|]. cbn. congruence.
          - exfalso. revert E. unfold on_update. destruct (y_acks z); [contradiction|]. cbn. congruence. }
        destruct PH as [pos' E1|pos' E1|pos' q x E1|q E1|q E1|pos' E1 E2 E3 E4 E5 E6|pos' o E1 E2 E3 E4 E5 E6 E7]; try congruence.
        * destruct (between_batches H _ (n_start n) pos' CH HO) as (q' & Q' & EB & _); [pose proof (lim_le _ _ LG); rewrite ES in E5; subst L; lia|].
          exists q'. split; [|rewrite ES in E6; lia]. unfold all_out. rewrite E2. cbn [flat_map items]. rewrite map_app, E4, EB. reflexivity.
        * exfalso. subst y. unfold do_send in *. destruct (send_back p (y_store (n_sys n)) pos) as [[[o' w] x]|]; cbn in *; [congruence|]. destruct (y_net (n_sys n)); discriminate.
      + rewrite PC. destruct (ED PC) as (A & q & Q & QB). split; [assumption|]. exists q. rewrite AO. auto.
  Qed.

  Lemma RI_store H n next G M a r' new : RI H n next G M -> op_ok c (y_store (n_sys n)) a -> live (y_store (n_sys n)) a ->
    exec c (y_store (n_sys n)) a = Done r' -> stored_by a (y_store (n_sys n)) r' new -> get_log_start r' <= get_hw r' ->
    RI (H ++ new) (mkConn (n_start n) (set_store (n_sys n) r') (n_taken n) (n_avail n)) next G M.
  Proof.
    intros R OK LV EX ST LH. destruct (RI_facts _ _ _ _ _ R) as (L & EL & LG & HI & CH & HO & DM). subst L.
    destruct (logged_step c _ H a r' new CO LG OK ltac:(destruct a; cbn in *; auto) EX ST) as (LG' & LE & LS & HM).
    assert (lim (y_store (n_sys n)) <= lim r') as LM by (destruct (p_iso p); cbn; auto). pose proof (lim_le _ _ LG) as LL. destruct ST as (CN & ST0).
    assert (Forall honest new) as HN by (destruct LG' as (? & ? & _ & _ & _ & _ & HO'); rewrite Forall_app in HO'; tauto).
    destruct R as [(r1 & H1 & HI1 & B & RN) RG (P1 & P2) NX TK SO SN CP ED]. constructor; cbn [n_start n_sys n_taken n_avail]; auto.
    - exists r1, H1. split; [assumption|]. split; [assumption|]. eapply run_store; try eassumption. split; assumption.
    - cbn. lia.
    - cbn [set_store y_out]. rewrite TK, (between_grow H new _ _ _ M CN HN) by lia. reflexivity.
    - eapply Forall_impl; [|exact SN]. intros x (A & C). split; [|assumption]. rewrite flat_map_app. apply in_or_app. auto.
    - cbn [set_store y_store]. intros x IN X. rewrite flat_map_app in IN. apply in_app_or in IN as [IN|IN].
      + destruct (CP x IN X) as [A|A]; [left; assumption|right]. unfold gone in *. lia.
      + exfalso. apply in_flat_map in IN as (b & IN & IX). rewrite Forall_forall in HN. apply records_of_range in IX; [|auto]. apply (chain_in _ _ _ _ CN) in IN. lia.
    - cbn [set_store y_pc y_store]. intros E. destruct (ED E) as (A & q & Q & QB). split; [lia|]. exists q. split; [|assumption].
      change (all_out (n_start n) (set_store (n_sys n) r')) with (all_out (n_start n) (n_sys n)). rewrite Q, (between_grow H new _ _ _ q CN HN) by lia. reflexivity.
  Qed.

  Lemma taken_next H n next G M i : RI H n next G M -> nth_error (y_out (n_sys n)) (n_taken n) = Some i ->
    (forall x, entry i = Some x -> fst x = M /\ In x (flat_map records_of H) /\ M + 1 <= lim (y_store (n_sys n))
        /\ map entry (firstn (S (n_taken n)) (y_out (n_sys n))) = map Some (between (n_start n) (M + 1) H))
    /\ (entry i = None -> M < n_avail n <= get_log_start (y_store (n_sys n))).
  Proof.
    intros R NT. destruct (RI_facts _ _ _ _ _ R) as (L & EL & LG & HI & CH & HO & DM). subst L.
    destruct R as [(r1 & H1 & HI1 & B & RN) RG (P1 & P2) NX TK SO SN CP ED]. pose proof (lim_le _ _ LG) as LL.
    destruct (plain_safe c p (n_start n) CO ltac:(lia) SM _ _ _ _ HI1 ltac:(lia) RN DM) as (q & e & EQ & Q & D). change (seen (n_sys n)) with (map entry (y_out (n_sys n))) in EQ.
    pose proof (map_nth_error entry _ _ NT) as NE. destruct (between_is H _ (n_start n) q CH HO ltac:(lia)) as (_ & Z). specialize (Z ltac:(lia)). split.
    - intros x EX. rewrite EQ, EX in NE.
      assert (n_taken n < length (between (n_start n) q H))%nat as LT.
      { destruct (Nat.lt_ge_cases (n_taken n) (length (between (n_start n) q H))) as [|GE]; [assumption|exfalso].
        rewrite nth_error_app2 in NE by (rewrite map_length; assumption). destruct D as [->|(-> & _)]; [destruct (_ - _)%nat; discriminate|]. destruct (_ - _)%nat as [|[|]]; discriminate. }
      rewrite nth_error_app1 in NE by (rewrite map_length; assumption). rewrite nth_error_map in NE. destruct (nth_error (between (n_start n) q H) (n_taken n)) as [z|] eqn:NZ; [|discriminate].
      inversion NE; subst z. pose proof (between_nth _ _ _ _ _ _ CH HO (proj1 B) NZ) as FX. pose proof (nth_error_In _ _ NZ) as IN. apply between_in in IN as (IN & IB).
      split; [lia|]. split; [assumption|]. split; [lia|].
      rewrite <- firstn_map, EQ, (between_cut H _ (n_start n) (M + 1) q CH HO) by lia. rewrite firstn_app, map_length.
      replace (S (n_taken n) - length (between (n_start n) q H))%nat with O by lia. rewrite app_nil_r, firstn_map. do 2 f_equal. lia.
    - intros EX. rewrite EQ, EX in NE. destruct (Nat.lt_ge_cases (n_taken n) (length (between (n_start n) q H))) as [LT|GE].
      { exfalso. rewrite nth_error_app1 in NE by (rewrite map_length; assumption). rewrite nth_error_map in NE. destruct (nth_error (between (n_start n) q H) (n_taken n)); discriminate. }
      destruct D as [->|(-> & PC & _)]; [exfalso; rewrite nth_error_app2 in NE by (rewrite map_length; assumption); destruct (_ - _)%nat; discriminate|].
      destruct (ED PC) as (A & q2 & Q2 & QB). unfold all_out in Q2. rewrite map_app in Q2. change (seen (n_sys n)) with (map entry (y_out (n_sys n))) in EQ.
      assert (nth_error (map Some (between (n_start n) q2 H) ++ [None]) (n_taken n) = Some None) as NE2.
      { rewrite <- Q2. rewrite nth_error_app1; [rewrite EQ; assumption|]. rewrite map_length. apply nth_error_Some. congruence. }
      destruct (between_is H _ (n_start n) q2 CH HO ltac:(lia)) as (_ & Z2). specialize (Z2 ltac:(lia)). unfold zlen in Z2.
      destruct (Nat.lt_ge_cases (n_taken n) (length (between (n_start n) q2 H))) as [LT2|GE2].
      { exfalso. rewrite nth_error_app1 in NE2 by (rewrite map_length; assumption). rewrite nth_error_map in NE2. destruct (nth_error (between (n_start n) q2 H) (n_taken n)); discriminate. }
      rewrite nth_error_app2 in NE2 by (rewrite map_length; assumption). rewrite map_length in NE2. destruct (n_taken n - length (between (n_start n) q2 H))%nat as [|[|]] eqn:EK; try discriminate. lia.
  Qed.

  Lemma open_one q r s : resolve q (get_log_start r) (get_hw r) None = Ok s -> ConsumerModel.open_all q [r] = Some [open_conn r s].
  Proof. intros E. cbn [ConsumerModel.open_all]. rewrite E. reflexivity. Qed.
  Lemma resolve_abs o lo hi : 0 <= o -> resolve (Absolute o) lo hi None = Ok o.
  Proof. intros E. cbn. f_equal. lia. Qed.
  Lemma sorted_snoc G M (x : Z * rec) : StronglySorted (fun x y => fst x < fst y) G -> Forall (fun y => fst y < M) G -> fst x = M -> StronglySorted (fun x y => fst x < fst y) (G ++ [x]).
  Proof.
    induction G as [|g G IH]; intros SO F E; cbn [app]; [repeat constructor|]. inversion SO as [|? ? SO' FO]; subst. inversion F as [|? ? F1 F2]; subst. constructor; [auto|].
    apply Forall_app. split; [assumption|]. constructor; [assumption|constructor].
  Qed.
  Lemma reconnect_one H n next G M N' gv hs d : RI H n next G M -> d_conns d = [n] -> d_given d = gv -> map snd gv = G -> Forall (fun y => fst y = O) gv ->
    M <= N' -> N' <= lim (y_store (n_sys n)) -> (N' = M \/ N' <= get_log_start (y_store (n_sys n))) -> hs = [H] ->
    forall nx d', (nx = Some N' \/ nx = None /\ N' = s0) -> reconnect (Absolute s0) nx d = Some d' -> R1 (hs, d').
  Proof.
    intros R DC DG EG FG MN NL CASE -> nx d' NX RC. destruct (RI_facts _ _ _ _ _ R) as (L & EL & LG & HI & CH & HO & DM). subst L.
    destruct R as [(r1 & H1 & HI1 & B & RN) RG (P1 & P2) NXT TK SO SN CP ED]. unfold reconnect, stores in RC. rewrite DC in RC. cbn [map] in RC.
    assert (next_offset (Absolute s0) nx = Absolute N') as NO.
    { destruct NX as [->|(-> & ->)]; [|reflexivity]. cbn. unfold absolute. replace (N' <? 0) with false by lia. reflexivity. }
    rewrite NO, (open_one _ _ N') in RC by (apply resolve_abs; lia). inversion RC; subst d'. exists H, (open_conn (y_store (n_sys n)) N'), N'. cbn [fst snd d_conns d_given d_next].
    split; [reflexivity|]. split; [reflexivity|]. split; [rewrite DG; assumption|]. apply R1_open; auto; [lia| | |].
    - rewrite DG, EG. assumption.
    - rewrite DG, EG. eapply Forall_impl; [|exact SN]. intros x (A & C). split; [assumption|lia].
    - rewrite DG, EG. intros x IN X. destruct (Z.lt_ge_cases (fst x) M) as [LT|GE]; [apply CP; [assumption|lia]|]. right. unfold gone. destruct CASE; lia.
  Qed.

  Lemma R1_step x y : R1 x -> rmoves c p (Absolute s0) x y -> R1 y.
  Proof.
    intros (H & n & M & E1 & E2 & FG & R) MV. destruct MV as [Hs d i n' y N1 MV|Hs d i n' H' a r' new N1 N2 OK LV EX ST LH|Hs d i d' TK|Hs d d' FL]; cbn [fst snd] in *; subst Hs.
    - rewrite E2 in *. destruct i as [|[|i]]; try discriminate. inversion N1; subst n'. exists H, (conn_move n y), M. cbn [fst snd d_conns d_given d_next set_nth].
      split; [reflexivity|]. split; [reflexivity|]. split; [assumption|]. apply RI_conn; assumption.
    - rewrite E2 in *. destruct i as [|[|i]]; try discriminate. inversion N1; subst n'. inversion N2; subst H'. cbn [set_nth].
      do 3 eexists. cbn [fst snd d_conns d_given d_next]. split; [reflexivity|]. split; [reflexivity|]. split; [assumption|]. eapply RI_store; eassumption.
    - unfold take in TK. rewrite E2 in TK. destruct i as [|[|i]]; try discriminate. cbn [nth_error] in TK. destruct (nth_error (y_out (n_sys n)) (n_taken n)) as [i|] eqn:NT; [|discriminate].
      destruct (taken_next _ _ _ _ _ _ R NT) as (A & A'). destruct i as [k|].
      + inversion TK; subst d'. clear TK. specialize (A _ eq_refl). cbn [fst] in A. destruct A as (EM & IN & LM & TE).
        destruct (RI_facts _ _ _ _ _ R) as (L & EL & LG & HI & CH & HO & DM). subst L. destruct (log_consecutive H 0 _ CH HO) as (CS & _).
        destruct R as [RC RG (P1 & P2) NX TK SO SN CP ED].
        exists H. do 2 eexists. cbn [fst snd d_conns d_given d_next set_nth]. split; [reflexivity|]. split; [reflexivity|].
        split; [apply Forall_app; split; [assumption|constructor; [reflexivity|constructor]]|].
        instantiate (1 := M + 1). constructor; cbn [n_start n_sys n_taken n_avail]; auto.
        * lia.
        * left. f_equal. lia.
        * rewrite map_app. cbn [map snd]. apply (sorted_snoc _ M); [assumption| |exact EM]. eapply Forall_impl; [|exact SN]. intros z (_ & Z). lia.
        * rewrite map_app. apply Forall_app. split; [eapply Forall_impl; [|exact SN]; intros z (? & Z); split; [assumption|lia]|].
          constructor; [|constructor]. cbn [snd fst map]. split; [assumption|].
          lia.
        * intros z Z1 Z2. rewrite map_app. destruct (Z.lt_ge_cases (fst z) M) as [LT|GE].
          -- destruct (CP z Z1 ltac:(lia)) as [Q|Q]; [left; apply in_or_app; auto|right; assumption].
          -- left. apply in_or_app. right. left. cbn [snd]. apply (consecutive_inj _ _ _ _ CS IN Z1). cbn [fst]. lia.
      + specialize (A' eq_refl). destruct (RI_facts _ _ _ _ _ R) as (L & EL & LG & HI & CH & HO & DM). subst L. pose proof (lim_le _ _ LG). pose proof (ri_range _ _ _ _ _ R).
        eapply (reconnect_one H n _ _ M (n_avail n)); eauto; lia.
    - unfold fail in FL. pose proof (ri_next _ _ _ _ _ R) as NX. pose proof (ri_pos _ _ _ _ _ R) as (P1 & P2).
      refine (reconnect_one H n _ _ M M _ _ d R E2 eq_refl eq_refl FG _ _ (or_introl eq_refl) eq_refl (d_next d) d' _ FL); [lia|lia|]. destruct NX as [NX|(NX & NX2 & _)]; auto.
  Qed.

  Lemma R1_run r H d x : hist c r H -> s0 <= lim r -> get_log_start r <= get_hw r -> opened (Absolute s0) [r] d -> rrun c p (Absolute s0) ([H], d) x -> R1 x.
  Proof.
    intros HI SL LH (l & OP & ->) RN. rewrite (open_one _ _ s0) in OP by (apply resolve_abs; assumption). inversion OP; subst l. clear OP.
    induction RN as [|y z RN IH MV]; [|eapply R1_step; eassumption]. exists H, (open_conn r s0), s0. cbn [fst snd d_conns d_given d_next map]. split; [reflexivity|]. split; [reflexivity|].
    split; [constructor|]. apply R1_open; auto; [lia|apply SSorted_nil|]. intros x _ X. lia.
  Qed.
  Lemma given_all (l : list (nat * (Z * rec))) : Forall (fun y => fst y = O) l -> map snd (filter (fun x => Nat.eqb (fst x) 0) l) = map snd l.
  Proof. intros F. f_equal. apply filter_true. intros x IN. rewrite Forall_forall in F. rewrite (F x IN). reflexivity. Qed.

  Lemma one_partition r H0 d0 Hs d : hist c r H0 -> s0 <= lim r -> get_log_start r <= get_hw r -> opened (Absolute s0) [r] d0 ->
    rrun c p (Absolute s0) ([H0], d0) (Hs, d) ->
    exists H n, Hs = [H] /\ d_conns d = [n]
      /\ StronglySorted (fun x y => fst x < fst y) (given_of 0 d)
      /\ (forall x, In x (given_of 0 d) -> In x (flat_map records_of H) /\ s0 <= fst x)
      /\ (forall x y, In y (given_of 0 d) -> In x (flat_map records_of H) -> s0 <= fst x < fst y -> In x (given_of 0 d) \/ fst x < get_log_start (y_store (n_sys n)))
      /\ (quiet p (n_sys n) -> n_taken n = length (y_out (n_sys n)) ->
            forall b x, In b H -> batch_end b <= lim (y_store (n_sys n)) -> In x (records_of b) -> s0 <= fst x ->
            In x (given_of 0 d) \/ fst x < get_log_start (y_store (n_sys n))).
  Proof.
    intros HI SL LH OP RN. destruct (R1_run _ _ _ _ HI SL LH OP RN) as (H & n & M & E1 & E2 & FG & R). cbn [fst snd] in *. exists H, n. split; [assumption|]. split; [assumption|].
    unfold given_of. rewrite given_all by assumption. destruct (RI_facts _ _ _ _ _ R) as (L & EL & LG & HI' & CH & HO & DM). subst L.
    destruct R as [(r1 & H1 & HI1 & B & RN1) RG (P1 & P2) NX TK SO SN CP ED]. rewrite Forall_forall in SN. split; [assumption|].
    split; [intros x IN; destruct (SN x IN) as (A & ?); split; [exact A|lia]|].
    split; [intros x y IY IX X; destruct (SN y IY) as (_ & ?); apply CP; [assumption|lia]|].
    intros QU ALL b x IB BE IX SX. destruct (plain_complete c p (n_start n) CO ltac:(lia) SM _ _ _ _ HI1 ltac:(lia) RN1 DM QU) as (q & EQ & Q & AL).
    change (map entry (y_out (n_sys n)) = map Some (between (n_start n) q H)) in EQ. apply (f_equal (@length _)) in EQ. rewrite !map_length in EQ.
    destruct (between_is H _ (n_start n) q CH HO ltac:(lia)) as (_ & Z). pose proof (lim_le _ _ LG). specialize (Z ltac:(lia)). unfold zlen in Z.
    specialize (AL b IB BE). pose proof HO as HO'. rewrite Forall_forall in HO'. apply CP; [apply in_flat_map; eauto|]. apply records_of_range in IX; [|auto]. lia.
  Qed.
End Reader.

(** * Witnesses: start offsets *)
Definition sm_c : config := mkConfig 160 1000 10 100 100 10.
Definition sm_r : replica := enforce_size sm_c (put sm_c false (fresh sm_c 0) st_l).
Lemma sm_c_ok : config_ok sm_c. Proof. unfold config_ok, sm_c. cbn. lia. Qed.
Lemma sm_hist : hist sm_c sm_r (st_H ++ []).
Proof.
  assert (hist sm_c (put sm_c false (fresh sm_c 0) st_l) st_H) as HI.
  { change st_H with ([] ++ number (get_leo (fresh sm_c 0)) (firstn 3 st_l)). apply hist_put; [constructor| | | |].
    - unfold st_l. repeat (constructor; [msgs_ok|]). constructor.
    - room_tac.
    - unfold st_l. repeat (constructor; [honest_tac|]). constructor.
    - vm_compute. repeat split; reflexivity. }
  refine (hist_step sm_c _ st_H CleanSize sm_r [] HI I I eq_refl _). split; [vm_compute; reflexivity|reflexivity].
Qed.
Lemma resolve_refuted : exists c r H, config_ok c /\ hist c r H /\ resolve (FromBeginning 0) (get_log_start r) (get_hw r) None = Err Panic.
Proof. exists sm_c, sm_r, (st_H ++ []). split; [apply sm_c_ok|]. split; [apply sm_hist|]. vm_compute. reflexivity. Qed.

(** * Witnesses: managed offsets *)
Ltac wgo := match goal with |- wruns _ _ => eapply wruns_step end.
Lemma refused_flush : exists w t, wruns (world0 Auto None) w /\ w_log w = FlushOk :: t /\ ~ In Reconnected t /\ last_commit Auto t = 5
  /\ w_stored w = None /\ e_queue (w_cur w) = [] /\ w_old w = [].
Proof.
  do 2 eexists. split.
  - wgo; [wgo; [wgo; [apply wruns_none|apply (w_record _ 5 true false); [reflexivity|lia]]|apply (w_note _ (Refusal false))]|apply w_flush; reflexivity].
  - cbn. split; [reflexivity|]. split; [intros [E|[E|[]]]; discriminate E|]. auto.
Qed.
Lemma early_flush : exists w t w' , wruns (world0 Auto None) w /\ w_log w = FlushOk :: t /\ ~ In Reconnected t /\ last_commit Auto t = 5
  /\ w_stored w = None /\ w_log w' = w_log w /\ wmove w w' /\ w_stored w' = Some 5.
Proof.
  do 3 eexists. split.
  - wgo; [wgo; [apply wruns_none|apply (w_record _ 5 true false); [reflexivity|lia]]|apply w_flush; reflexivity].
  - cbn. split; [reflexivity|]. split; [intros [E|[E|[]]]; discriminate E|]. split; [reflexivity|]. split; [reflexivity|].
    split; [|split; [apply (w_note _ Confirmed)|reflexivity]]. reflexivity.
Qed.
Lemma reconnect_flush : exists w t, wruns (world0 Manual None) w /\ w_log w = FlushOk :: t /\ last_commit Manual t = 5
  /\ w_stored w = None /\ e_queue (w_cur w) = [] /\ (forall q, In q (w_old w) -> q = []).
Proof.
  do 2 eexists. split.
  - wgo; [wgo; [wgo; [wgo; [apply wruns_none|apply (w_record _ 5 true false); [reflexivity|lia]]|apply w_commit; reflexivity]|apply (w_reconnect _ false); reflexivity]|apply w_flush; reflexivity].
  - cbn. split; [reflexivity|]. split; [reflexivity|]. split; [reflexivity|]. split; [reflexivity|]. intros q [<-|[]]. reflexivity.
Qed.
Lemma old_message : exists w w', wruns (world0 Auto None) w /\ wmove w w' /\ w_stored w = Some 7 /\ w_stored w' = Some 5.
Proof.
  do 2 eexists. split; [|split; [apply (w_older _ 0 Confirmed)|]].
  - wgo; [wgo; [wgo; [wgo; [apply wruns_none|apply (w_record _ 5 true false); [reflexivity|lia]]|apply (w_reconnect _ false); reflexivity]|apply (w_record _ 7 true false); [reflexivity|lia]]|apply (w_note _ Confirmed)].
  - cbn. auto.
Qed.
(** A manual consumer: 4 and 6 read, 6 committed and flushed, 8 read *)
Lemma managed_demo : exists w t, wruns (world0 Manual (Some 3)) w /\ w_log w = FlushOk :: t /\ ~ In Reconnected t /\ last_commit Manual t = 6 /\ highest t = 8 /\ w_stored w = Some 6.
Proof.
  do 2 eexists. split.
  - wgo; [wgo; [wgo; [wgo; [wgo; [wgo; [apply wruns_none|apply (w_record _ 4 true false); [reflexivity|lia]]|apply (w_record _ 6 true false); [reflexivity|lia]]|apply w_commit; reflexivity]
      |apply (w_record _ 8 false false); [reflexivity|lia]]|apply w_flush; reflexivity]|apply (w_note _ Confirmed)].
  - cbn. split; [reflexivity|]. split; [intros [E|[E|[E|[E|[]]]]]; discriminate E|]. auto.
Qed.

(** * Witnesses: bounded reads *)
Definition bnext (p : params) (s : Z) (b : bounded) : option bounded :=
  match y_net (b_sys b) with
  | _ :: _ => if 0 <? b_left b then Some (take_reply s b) else None
  | [] => match next_move p s (b_sys b) with Some y => Some (mkBounded y (b_left b)) | None => None end
  end.
Fixpoint bdrive (p : params) (s : Z) (n : nat) (b : bounded) : bounded :=
  match n with O => b | S n => match bnext p s b with Some b' => bdrive p s n b' | None => b end end.
Lemma bnext_moves p s b b' : bnext p s b = Some b' -> bmoves p s b b'.
Proof.
  unfold bnext. destruct b as [y n]. cbn [b_sys b_left]. destruct (y_net y) as [|x t] eqn:EN.
  - unfold next_move. rewrite EN. destruct (y_acks y) as [|q t] eqn:EA.
    + destruct (y_pc y) eqn:PC; intros E; [inversion E; subst; apply bm_send; assumption| |discriminate].
      destruct (y_pub y =? y_ack_seen y) eqn:PA; cbn [negb] in E.
      * destruct (log_limit (p_iso p) (y_store y) =? y_end_seen y) eqn:PE; cbn [negb] in E; [discriminate|]. inversion E; subst. apply bm_end; [assumption|lia].
      * inversion E; subst. apply bm_ack; [assumption|lia].
    + intros E; inversion E; subst. apply bm_update. congruence.
  - destruct (0 <? n) eqn:N; [|discriminate]. intros E; inversion E; subst. apply bm_take; cbn; [lia|congruence].
Qed.
Lemma bdrive_run c p s r0 H0 H n : forall b, brun c p s r0 H0 H b -> brun c p s r0 H0 H (bdrive p s n b).
Proof.
  induction n as [|n IH]; intros b R; [exact R|]. cbn [bdrive]. destruct (bnext p s b) as [b'|] eqn:E; [|exact R].
  apply IH. eapply brun_move; [exact R|]. apply bnext_moves. assumption.
Qed.
Definition bounded_rest (p : params) (s : Z) (r : replica) : bounded := bdrive p s 40 (start_bounded r s).
Lemma bounded_rest_run c p s r H : brun c p s r H H (bounded_rest p s r).
Proof. apply bdrive_run. constructor. Qed.
Lemma no_move p s b : y_net (b_sys b) = [] -> y_acks (b_sys b) = [] -> y_pc (b_sys b) = Waiting -> y_pub (b_sys b) = y_ack_seen (b_sys b) ->
  log_limit (p_iso p) (y_store (b_sys b)) = y_end_seen (b_sys b) -> forall b', ~ bmoves p s b b'.
Proof. intros A B C D E b' MV. destruct MV; cbn in *; congruence. Qed.

Lemma bounded_demo : config_ok st_c /\ hist st_c st_r st_H /\ aligned 2 st_H /\ boundary (get_hw st_r) st_H
  /\ brun st_c (plain 160) 2 st_r st_H st_H (bounded_rest (plain 160) 2 st_r) /\ one_response st_c (plain 160) 2 st_r st_H
  /\ finished (bounded_rest (plain 160) 2 st_r)
  /\ map val_of (seen (b_sys (bounded_rest (plain 160) 2 st_r))) = [Some (2, [3]); Some (3, [4]); Some (4, [5])].
Proof.
  split; [apply st_c_ok|]. split; [apply st_hist|]. split; [intros b IN; repeat destruct IN as [<-|IN]; try contradiction IN; vm_compute; congruence|].
  split; [right; exists (nth 2 st_H (demo 0 0)); split; [right; right; left; reflexivity|vm_compute; reflexivity]|]. split; [apply bounded_rest_run|].
  split; [left; cbn; lia|]. split; [vm_compute; discriminate|]. vm_compute. reflexivity.
Qed.
(** Started inside a batch: the records of the batch that come before count too *)
Definition in_l : list (batch bytes) := [msgs [[1]; [2]; [3]]; msgs [[4]]; msgs [[5]]].
Definition in_r : replica := put st_c true (fresh st_c 0) in_l.
Definition in_H : list (batch bytes) := number 0 in_l.
Lemma in_hist : hist st_c in_r in_H.
Proof.
  change in_H with ([] ++ number (get_leo (fresh st_c 0)) (firstn 3 in_l)). apply hist_put; [constructor| | | |].
  - unfold in_l. repeat (constructor; [msgs_ok|]). constructor.
  - room_tac.
  - unfold in_l. repeat (constructor; [honest_tac|]). constructor.
  - vm_compute. repeat split; reflexivity.
Qed.
Lemma bounded_inside : exists c p s r H b x, config_ok c /\ p_sm p = None /\ hist c r H /\ 0 <= s <= get_hw r /\ one_response c p s r H
  /\ boundary (get_hw r) H /\ brun c p s r H H b /\ finished b
  /\ In x (between s (get_hw r) H) /\ ~ In (Some x) (seen (b_sys b)).
Proof.
  exists st_c, (plain 160), 2, in_r, in_H. eexists. exists (4, mkRec 0 0 0 None [5] 0). split; [apply st_c_ok|]. split; [reflexivity|]. split; [apply in_hist|]. split; [vm_compute; split; congruence|].
  split; [left; cbn; lia|]. split; [right; exists (nth 2 in_H (demo 0 0)); split; [right; right; left; reflexivity|vm_compute; reflexivity]|].
  split; [apply bounded_rest_run|]. split; [vm_compute; discriminate|]. split; [vm_compute; auto|]. vm_compute. intros IN. repeat destruct IN as [IN|IN]; try discriminate IN; assumption.
Qed.
(** With a SmartModule that drops records the read never ends *)
Lemma bounded_waits : exists c p sm s r H b, config_ok c /\ p_sm p = Some sm /\ hist c r H /\ 0 <= s <= get_hw r /\ smart_log sm (p_max p) s r H /\ boundary (get_hw r) H
  /\ brun c p s r H H b /\ (forall b', ~ bmoves p s b b') /\ ~ finished b /\ y_pc (b_sys b) <> Ended.
Proof.
  exists st_c, (filtered 100 odd), odd, 0, st_r, st_H. eexists. split; [apply st_c_ok|]. split; [reflexivity|]. split; [apply st_hist|]. split; [vm_compute; split; congruence|]. split; [apply smart_demo|].
  split; [right; exists (nth 2 st_H (demo 0 0)); split; [right; right; left; reflexivity|vm_compute; reflexivity]|].
  split; [apply bounded_rest_run|]. split; [apply no_move; vm_compute; reflexivity|]. split; [vm_compute; intros A; apply A; reflexivity|]. vm_compute. discriminate.
Qed.
(** With a SmartModule that makes several records of one it ends too early *)
Definition twice : smart := fun _ l => flat_map (fun r => [r; r]) l.
Lemma bounded_short : exists c p sm s r H b bt, config_ok c /\ p_sm p = Some sm /\ hist c r H /\ 0 <= s <= get_hw r /\ smart_log sm (p_max p) s r H /\ boundary (get_hw r) H
  /\ brun c p s r H H b /\ finished b /\ In bt H /\ s <= b_base bt /\ batch_end bt <= get_hw r
  /\ forall x, In x (passed sm bt) -> ~ In (Some (content_of x)) (seen_content (b_sys b)).
Proof.
  exists st_c, (filtered 100 twice), twice, 0, st_r, st_H. eexists. exists (nth 2 st_H (demo 0 0)). split; [apply st_c_ok|]. split; [reflexivity|]. split; [apply st_hist|]. split; [vm_compute; split; congruence|].
  split.
  { split; [intros b IN _; repeat destruct IN as [<-|IN]; try contradiction IN; vm_compute; congruence|].
    split; [intros b IN _; repeat destruct IN as [<-|IN]; try contradiction IN; vm_compute; congruence|].
    right. intros b IN _; repeat destruct IN as [<-|IN]; try contradiction IN; vm_compute; congruence. }
  split; [right; exists (nth 2 st_H (demo 0 0)); split; [right; right; left; reflexivity|vm_compute; reflexivity]|].
  split; [apply bounded_rest_run|]. split; [vm_compute; discriminate|]. split; [right; right; left; reflexivity|]. split; [vm_compute; congruence|]. split; [vm_compute; congruence|].
  vm_compute. intros x X IN. repeat destruct X as [<-|X]; try contradiction X; repeat destruct IN as [IN|IN]; try discriminate IN; assumption.
Qed.

(** * Witnesses: reconnection *)
Inductive cmd := Go (i : nat) | Take (i : nat) | Drop.
Definition act (p : params) (first : request) (d : reader) (x : cmd) : option reader :=
  match x with
  | Go i => match nth_error (d_conns d) i with
            | Some n => match next_move p (n_start n) (n_sys n) with
                        | Some y => Some (mkReader (set_nth i (conn_move n y) (d_conns d)) (d_next d) (d_given d))
                        | None => Some d end
            | None => None end
  | Take i => take first i d
  | Drop => fail first d
  end.
Fixpoint acts (p : params) (first : request) (l : list cmd) (d : reader) : option reader :=
  match l with [] => Some d | x :: l => match act p first d x with Some d' => acts p first l d' | None => None end end.
Lemma acts_run c p first x Hs l : forall d d', rrun c p first x (Hs, d) -> acts p first l d = Some d' -> rrun c p first x (Hs, d').
Proof.
  induction l as [|a l IH]; intros d d' R E; [inversion E; subst; exact R|]. cbn [acts] in E. destruct (act p first d a) as [d1|] eqn:A; [|discriminate].
  apply (IH d1 d'); [|exact E]. destruct a as [i|i|]; cbn [act] in A.
  - destruct (nth_error (d_conns d) i) as [n|] eqn:N; [|discriminate]. destruct (next_move p (n_start n) (n_sys n)) as [y|] eqn:M; inversion A; subst; [|exact R].
    eapply rrun_move; [exact R|]. apply r_conn; [assumption|]. apply next_moves. assumption.
  - eapply rrun_move; [exact R|]. apply r_take with (i := i). assumption.
  - eapply rrun_move; [exact R|]. apply r_fail. assumption.
Qed.
Definition goes (i k : nat) : list cmd := repeat (Go i) k.
Definition takes (i k : nat) : list cmd := repeat (Take i) k.
Definition or_none {A} (d : A) (x : option A) : A := match x with Some a => a | None => d end.
Definition nobody : reader := mkReader [] None [].
Definition started (first : request) (rs : list replica) : reader := mkReader (or_none [] (ConsumerModel.open_all first rs)) None [].
Definition rested (p : params) (d : reader) : Prop := Forall (fun n => quiet p (n_sys n) /\ n_taken n = length (y_out (n_sys n))) (d_conns d).
Lemma quiet_now p s y : next_move p s y = None -> y_pc y <> Ended -> quiet p y.
Proof. exact (quiet_drive p s 0 y). Qed.
Ltac rested_tac := repeat (constructor; [split; [apply (quiet_now _ 0); [vm_compute; reflexivity|vm_compute; discriminate]|vm_compute; reflexivity]|]); constructor.

(** One partition: two records, the connection fails, the rest. *)
Definition one_script : list cmd := goes 0 20 ++ takes 0 2 ++ [Drop] ++ goes 0 20 ++ takes 0 3.
Lemma one_demo : exists d0 d, config_ok st_c /\ hist st_c st_r st_H /\ get_log_start st_r <= get_hw st_r /\ opened (Absolute 0) [st_r] d0
  /\ rrun st_c (plain 160) (Absolute 0) ([st_H], d0) ([st_H], d) /\ rested (plain 160) d
  /\ map (fun x => (fst x, r_val (snd x))) (given_of 0 d) = [(0, [1]); (1, [2]); (2, [3]); (3, [4]); (4, [5])].
Proof.
  exists (started (Absolute 0) [st_r]). eexists. split; [apply st_c_ok|]. split; [apply st_hist|]. split; [vm_compute; congruence|]. split; [eexists; split; vm_compute; reflexivity|].
  split; [apply (acts_run _ _ _ _ _ one_script) with (d := started (Absolute 0) [st_r]); [apply rrun_start|vm_compute; reflexivity]|].
  split; [rested_tac|]. vm_compute. reflexivity.
Qed.
(** Two partitions: three records of the first, none of the second, the connection
    fails; the first records of the second are never read. *)
Definition lost_script : list cmd := goes 0 20 ++ takes 0 3 ++ [Drop] ++ goes 0 20 ++ goes 1 20 ++ takes 0 2 ++ takes 1 2.
Lemma two_lost : exists c p r H d0 d x, config_ok c /\ p_sm p = None /\ c_seg_max c <= p_max p /\ hist c r H /\ get_log_start r <= get_hw r /\ opened (Absolute 0) [r; r] d0
  /\ rrun c p (Absolute 0) ([H; H], d0) ([H; H], d) /\ rested p d /\ d_conns d <> [] /\ Forall (fun n => get_log_start (y_store (n_sys n)) = 0) (d_conns d)
  /\ In x (between 0 (get_hw r) H) /\ ~ In x (given_of 1 d).
Proof.
  exists st_c, (plain 160), st_r, st_H, (started (Absolute 0) [st_r; st_r]). eexists. exists (0, mkRec 0 0 0 None [1] 0).
  split; [apply st_c_ok|]. split; [reflexivity|]. split; [cbn; lia|]. split; [apply st_hist|]. split; [vm_compute; congruence|]. split; [eexists; split; vm_compute; reflexivity|].
  split; [apply (acts_run _ _ _ _ _ lost_script) with (d := started (Absolute 0) [st_r; st_r]); [apply rrun_start|vm_compute; reflexivity]|].
  split; [rested_tac|]. split; [vm_compute; discriminate|]. split; [repeat (constructor; [vm_compute; reflexivity|]); constructor|]. split; [vm_compute; auto|]. vm_compute. intros IN. repeat destruct IN as [IN|IN]; try discriminate IN; assumption.
Qed.
(** All of the first, then one of the second: the first is read again from there *)
Definition again_script : list cmd := goes 0 20 ++ goes 1 20 ++ takes 0 5 ++ takes 1 1 ++ [Drop] ++ goes 0 20 ++ takes 0 1.
Lemma two_again : exists c p r H d0 d, config_ok c /\ p_sm p = None /\ c_seg_max c <= p_max p /\ hist c r H /\ get_log_start r <= get_hw r /\ opened (Absolute 0) [r; r] d0
  /\ rrun c p (Absolute 0) ([H; H], d0) ([H; H], d) /\ map fst (given_of 0 d) = [0; 1; 2; 3; 4; 1].
Proof.
  exists st_c, (plain 160), st_r, st_H, (started (Absolute 0) [st_r; st_r]). eexists.
  split; [apply st_c_ok|]. split; [reflexivity|]. split; [cbn; lia|]. split; [apply st_hist|]. split; [vm_compute; congruence|]. split; [eexists; split; vm_compute; reflexivity|].
  split; [apply (acts_run _ _ _ _ _ again_script) with (d := started (Absolute 0) [st_r; st_r]); [apply rrun_start|vm_compute; reflexivity]|]. vm_compute. reflexivity.
Qed.
(** From the end: what is written before the first record arrives is skipped when
    the connection fails *)
Definition end_new : list (batch bytes) := [msgs [[6]]].
Definition end_r : replica := put st_c true st_r end_new.
Definition end_H : list (batch bytes) := st_H ++ number 5 end_new.
Definition end_d : reader := mkReader [mkConn 5 (set_store (start_stream st_r 5) end_r) O 0] None [].
Lemma end_lost : exists c p r H d0 H1 d1 H2 d2 x, config_ok c /\ p_sm p = None /\ c_seg_max c <= p_max p /\ hist c r H /\ get_log_start r <= get_hw r /\ opened (FromEnd 0) [r] d0
  /\ rrun c p (FromEnd 0) ([H], d0) ([H1], d1) /\ rrun c p (FromEnd 0) ([H1], d1) ([H2], d2) /\ rested p d2 /\ d_conns d2 <> []
  /\ (forall n, In n (d_conns d1) -> n_start n <= fst x) /\ In x (between 0 (get_hw r + 1) H1) /\ ~ In x (given_of 0 d2)
  /\ forall n, In n (d_conns d2) -> get_log_start (y_store (n_sys n)) = 0.
Proof.
  exists st_c, (plain 160), st_r, st_H, (started (FromEnd 0) [st_r]), end_H, end_d, end_H. eexists. exists (5, mkRec 0 0 0 None [6] 0).
  split; [apply st_c_ok|]. split; [reflexivity|]. split; [cbn; lia|]. split; [apply st_hist|]. split; [vm_compute; congruence|]. split; [eexists; split; vm_compute; reflexivity|].
  split.
  { eapply rrun_move; [apply rrun_start|].
    assert (nth_error (d_conns (started (FromEnd 0) [st_r])) 0 = Some (open_conn st_r 5)) as N0 by (vm_compute; reflexivity).
    assert (op_ok st_c (y_store (n_sys (open_conn st_r 5))) (Write 0 end_new true)) as N1 by (split; [unfold end_new; constructor; [msgs_ok|constructor]|room_tac]).
    assert (live (y_store (n_sys (open_conn st_r 5))) (Write 0 end_new true)) as N2 by (cbn [live]; unfold end_new; constructor; [honest_tac|constructor]).
    assert (exec st_c (y_store (n_sys (open_conn st_r 5))) (Write 0 end_new true) = Done end_r) as N3 by (vm_compute; reflexivity).
    assert (stored_by (Write 0 end_new true) (y_store (n_sys (open_conn st_r 5))) end_r (number 5 end_new)) as N4.
    { split; [vm_compute; repeat split; reflexivity|]. exists 1%nat. vm_compute. reflexivity. }
    assert (get_log_start end_r <= get_hw end_r) as N5 by (vm_compute; congruence).
    pose proof (r_store st_c (plain 160) (FromEnd 0) [st_H] (started (FromEnd 0) [st_r]) 0 _ st_H _ _ _ N0 eq_refl N1 N2 N3 N4 N5) as X.
    match type of X with rmoves _ _ _ _ ?y => replace ([end_H], end_d) with y by (vm_compute; reflexivity) end. exact X. }
  split; [apply (acts_run _ _ _ _ _ ([Drop] ++ goes 0 20)) with (d := end_d); [apply rrun_start|vm_compute; reflexivity]|].
  split; [rested_tac|]. split; [vm_compute; discriminate|]. split; [vm_compute; intros n [<-|[]]; vm_compute; congruence|]. split; [vm_compute; tauto|]. split; [vm_compute; tauto|].
  vm_compute. intros n [<-|[]]. reflexivity.
Qed.
(** With a SmartModule the offsets handed out are not those of the log: [3] is
    delivered twice *)
Definition smart_script : list cmd := goes 0 20 ++ takes 0 2 ++ [Drop] ++ goes 0 20 ++ takes 0 1.
Lemma smart_again : exists c p sm r H d0 d, config_ok c /\ p_sm p = Some sm /\ smart_log sm (p_max p) 0 r H /\ hist c r H /\ get_log_start r <= get_hw r /\ opened (Absolute 0) [r] d0
  /\ rrun c p (Absolute 0) ([H], d0) ([H], d) /\ map (fun x => r_val (snd x)) (flat_map records_of H) = [[1]; [2]; [3]; [4]; [5]]
  /\ map (fun x => (fst x, r_val (snd x))) (given_of 0 d) = [(0, [1]); (1, [3]); (2, [3])].
Proof.
  exists st_c, (filtered 100 odd), odd, st_r, st_H, (started (Absolute 0) [st_r]). eexists.
  split; [apply st_c_ok|]. split; [reflexivity|]. split; [apply smart_demo|]. split; [apply st_hist|]. split; [vm_compute; congruence|]. split; [eexists; split; vm_compute; reflexivity|].
  split; [apply (acts_run _ _ _ _ _ smart_script) with (d := started (Absolute 0) [st_r]); [apply rrun_start|vm_compute; reflexivity]|]. split; vm_compute; reflexivity.
Qed.
