(** What producers and consumers of a partition see of each other. *)
From Verif Require Import ListFacts WireProofs StorageSpec StorageProofs ReplicaProofs ClusterProofs RecordSpec RecordProofs StorageClaims ProduceSpec ProduceClaims ProducerSpec ProducerProofs ProducerClaims.
From Verif Require Import StreamSpec StreamProofs StreamClaims EndModel EndSpec EndProofs.

(** * The log *)
Lemma log_app A B : log_of (A ++ B) = log_of A ++ log_of B.
Proof. apply flat_map_app. Qed.
Lemma log_payloads A : map snd (log_of A) = flat_map carried (stored_batches A).
Proof.
  induction A as [|v A IH]; [reflexivity|]. unfold log_of, stored_batches in *. cbn [flat_map filter]. rewrite map_app, IH. destruct (v_stored v); [|reflexivity].
  cbn [map flat_map]. rewrite map_map. cbn [snd]. rewrite map_id. reflexivity.
Qed.
Lemma log_part i A : part_of i (log_of A) = flat_map carried (stored_batches (from i A)).
Proof.
  unfold part_of. induction A as [|v A IH]; [reflexivity|]. change (v :: A) with ([v] ++ A). rewrite log_app, filter_app, map_app, IH, from_app, stored_app, flat_map_app.
  f_equal. unfold log_of, from, stored_batches. cbn [flat_map filter]. rewrite app_nil_r. destruct (Nat.eqb (v_from v) i) eqn:E.
  - destruct (v_stored v) eqn:S; cbn [filter]; rewrite S; [|reflexivity]. cbn [map flat_map]. rewrite app_nil_r.
    induction (carried (v_batch v)) as [|x l IHl]; [reflexivity|]. cbn [map filter fst]. rewrite E. cbn [map snd]. rewrite IHl. reflexivity.
  - cbn [filter map flat_map]. destruct (v_stored v); [|reflexivity]. induction (carried (v_batch v)) as [|x l IHl]; [reflexivity|]. cbn [map filter fst]. rewrite E. exact IHl.
Qed.
Lemma honest_carried b : honest b -> zlen (carried b) = records_len b.
Proof. intros (m & E & L). unfold carried. rewrite E. unfold zlen in *. rewrite map_length. exact L. Qed.
Lemma carried_total l : Forall good l -> zlen (flat_map carried l) = total l.
Proof.
  induction l as [|b l IH]; intros F; [reflexivity|]. inversion F as [|? ? G Fl]; subst. cbn [flat_map total]. rewrite zlen_app, IH by assumption. destruct G as (_ & G & _).
  rewrite honest_carried by assumption. reflexivity.
Qed.
Lemma log_length A : Forall good (map v_batch A) -> zlen (log_of A) = total (stored_batches A).
Proof.
  intros F. rewrite <- carried_total by (apply stored_good; assumption). rewrite <- log_payloads. unfold zlen. rewrite map_length. reflexivity.
Qed.

(** * Producers *)
Lemma carried_wire l : carried_all l = flat_map carried (concat l).
Proof. unfold carried_all. induction l as [|q l IH]; [reflexivity|]. cbn [flat_map concat]. rewrite flat_map_app, IH. reflexivity. Qed.
Lemma client_run a : prun (cl_conf a) producer0 (cl_events a) = (final a, returned a).
Proof. unfold final, returned. destruct (prun _ _ _). reflexivity. Qed.
Lemma wire_pushed a : client_ok a -> smooth (cl_events a) -> flat_map carried (on_wire a) ++ queued (final a) = pushed_by a.
Proof.
  intros (T & KO & HT & OK) SM. unfold on_wire. rewrite <- carried_wire. apply (once_in_order _ T _ _ _ KO HT OK SM (client_run a)).
Qed.
Lemma wire_only a x : client_ok a -> In x (flat_map carried (on_wire a)) -> In x (pushed_by a).
Proof.
  intros (T & KO & HT & OK) IN. destruct (every_run _ T _ _ _ KO HT OK (client_run a)) as (requests & copies & LC & _ & W & C).
  unfold pushed_by. rewrite <- C. apply in_or_app. left. unfold on_wire in IN. rewrite <- carried_wire, W in IN. unfold carried_all in *.
  apply in_flat_map in IN as (q & Hq & Hx). apply in_flat_map. exists q. split; [|assumption]. apply in_flat_map in Hq as ([q1 n] & Hq & HR). cbn [fst snd] in HR.
  apply repeat_spec in HR as ->. apply in_combine_l in Hq. assumption.
Qed.

Lemma sub_refl {A} (l : list A) : subsequence l l.
Proof. induction l; constructor; assumption. Qed.
Lemma sub_empty {A} (l : list A) : subsequence [] l.
Proof. induction l; constructor; assumption. Qed.
Lemma sub_app {A} (a b c d : list A) : subsequence a b -> subsequence c d -> subsequence (a ++ c) (b ++ d).
Proof. intros S1 S2. induction S1; cbn; [assumption|constructor; assumption|constructor; assumption]. Qed.
Lemma sub_grow {A} (a b t : list A) : subsequence a b -> subsequence a (b ++ t).
Proof. intros S. rewrite <- (app_nil_r a). apply sub_app; [assumption|apply sub_empty]. Qed.
Lemma sub_stored A : subsequence (flat_map carried (stored_batches A)) (flat_map carried (map v_batch A)).
Proof.
  induction A as [|v A IH]; [constructor|]. unfold stored_batches in *. cbn [filter map flat_map]. destruct (v_stored v).
  - cbn [map flat_map]. apply sub_app; [apply sub_refl|assumption].
  - change (flat_map carried (map v_batch (filter v_stored A))) with ([] ++ flat_map carried (map v_batch (filter v_stored A))). apply sub_app; [apply sub_empty|assumption].
Qed.
Lemma all_stored_batches A : Forall (fun v => v_stored v = true) A -> stored_batches A = map v_batch A.
Proof. induction 1 as [|v A E _ IH]; [reflexivity|]. unfold stored_batches in *. cbn [filter map]. rewrite E. cbn [map]. rewrite IH. reflexivity. Qed.

Section World.
  Context (c : config) (p : params) (s : Z) (P : list client) (CO : config_ok c) (CL : Forall client_ok P).

  Lemma client_in i a : nth_error P i = Some a -> client_ok a.
  Proof. intros E. rewrite Forall_forall in CL. apply CL. eapply nth_error_In; eassumption. Qed.

  Lemma nothing_else A ph i x : world c p s P A ph -> In (i, x) (log_of A) -> exists a, nth_error P i = Some a /\ In x (pushed_by a).
  Proof.
    intros W IN. pose proof (world_kept _ _ _ _ _ _ CO CL W) as K. unfold log_of in IN. apply in_flat_map in IN as (v & IV & IN).
    destruct (v_stored v); [|contradiction]. apply in_map_iff in IN as (y & E & IY). injection E as E1 E2. subst y.
    pose proof (K_who _ _ _ _ _ _ K) as KW. rewrite Forall_forall in KW. destruct (KW _ IV) as (a & NP). rewrite E1 in NP. exists a. split; [assumption|].
    apply wire_only; [eapply client_in; eassumption|]. destruct (K_from _ _ _ _ _ _ K _ _ NP) as (t & ->). rewrite flat_map_app. apply in_or_app. left.
    apply in_flat_map. exists (v_batch v). split; [|assumption]. apply in_map. unfold from. apply filter_In. split; [assumption|]. rewrite E1. apply Nat.eqb_refl.
  Qed.
  Lemma each_in_order A ph i a : world c p s P A ph -> nth_error P i = Some a -> smooth (cl_events a) ->
    subsequence (part_of i (log_of A)) (pushed_by a)
    /\ (Forall (fun v => v_stored v = true) (from i A) -> prefix_of (part_of i (log_of A)) (pushed_by a)).
  Proof.
    intros W NP SM. pose proof (world_kept _ _ _ _ _ _ CO CL W) as K. rewrite log_part. rewrite <- (wire_pushed a (client_in _ _ NP) SM).
    destruct (K_from _ _ _ _ _ _ K _ _ NP) as (t & ->). rewrite flat_map_app, <- app_assoc. split.
    - apply sub_grow. apply sub_stored.
    - intros F. rewrite all_stored_batches by assumption. eexists. reflexivity.
  Qed.
  Lemma each_complete A ph i a T : world c p s P A ph -> nth_error P i = Some a -> smooth (cl_events a) -> steady (cl_events a) ->
    conf_ok (cl_conf a) -> 0 <= T < 2 ^ 62 -> events_ok T (cl_events a) -> idle (final a) -> all_stored i a A ->
    part_of i (log_of A) = pushed_by a.
  Proof.
    intros W NP SM SD KO HT OK ID (E & F). rewrite log_part, all_stored_batches by assumption. rewrite E, <- (wire_pushed a (client_in _ _ NP) SM).
    unfold queued. rewrite (none_left _ T _ _ _ KO HT OK SD (client_run a) ID). cbn. rewrite app_nil_r. reflexivity.
  Qed.

  Lemma answer_means A ph v : world c p s P A ph -> In v A ->
    (p_code (v_answer v) = NoError -> v_stored v = true)
    /\ (v_stored v = true -> In (p_code (v_answer v)) [NoError; RequestTimedOut; NotLeaderForPartition]).
  Proof.
    intros W IN. pose proof (world_kept _ _ _ _ _ _ CO CL W) as K. apply in_split in IN as (B & C & E). destruct (K_facts _ _ _ _ _ _ K _ _ _ E) as (F1 & F2).
    split; [intros X; apply F1; assumption|assumption].
  Qed.
End World.

(** * The consumer *)
Lemma enumerate_app {A} (l m : list A) : forall o, enumerate o (l ++ m) = enumerate o l ++ enumerate (o + zlen l) m.
Proof.
  induction l as [|x l IH]; intros o; [cbn; rewrite Z.add_0_r; reflexivity|]. cbn [app enumerate]. rewrite IH. f_equal. f_equal. f_equal. unfold zlen. cbn [length]. lia.
Qed.
Definition plain_of (x : Z * rec) : Z * payload := (fst x, payload_of (snd x)).
Lemma number_plain l : forall o, map plain_of (number_records o l) = enumerate o (map payload_of l).
Proof. induction l as [|r l IH]; intros o; [reflexivity|]. cbn [number_records map enumerate]. rewrite IH. reflexivity. Qed.
Lemma records_plain l : Forall good l -> forall o, map plain_of (flat_map records_of (number o l)) = enumerate o (flat_map carried l).
Proof.
  induction l as [|b l IH]; intros F o; [reflexivity|]. inversion F as [|? ? G Fl]; subst. cbn [number flat_map]. rewrite map_app, IH by assumption.
  rewrite enumerate_app. pose proof (honest_carried b (proj1 (proj2 G))) as HC. f_equal; [|rewrite HC; reflexivity].
  unfold records_of, carried, to_memory. cbn [with_base b_recs b_base]. destruct (memory_records (b_recs b)) as [rs|e]; [|reflexivity]. cbn [bind b_recs]. apply number_plain.
Qed.
Lemma window_between s q l : Forall good l -> map plain_of (StreamSpec.between s q (number 0 l)) = window s q (flat_map carried l).
Proof.
  intros F. unfold StreamSpec.between, window. rewrite <- records_plain by assumption. induction (flat_map records_of (number 0 l)) as [|x t IH]; [reflexivity|].
  cbn [filter map]. change (fst (plain_of x)) with (fst x). destruct (_ && _); cbn [map]; rewrite IH; reflexivity.
Qed.
Lemma consumed_some l : map (option_map plain_of) (map Some l) = map Some (map plain_of l).
Proof. rewrite !map_map. reflexivity. Qed.

Lemma filter_encs f l : zlen (flat_map renc (filter f l)) <= zlen (flat_map renc l).
Proof.
  induction l as [|b l IH]; [reflexivity|]. cbn [filter flat_map]. pose proof (renc_pos b). destruct (f b); cbn [flat_map]; rewrite !zlen_app; lia.
Qed.
Lemma renc_same_len b o : zlen (renc (with_base b o)) = zlen (renc b).
Proof.
  unfold renc, batch_enc, zlen. destruct b as [bb bl h sc rs]. rewrite !app_length, !be_enc_length. reflexivity.
Qed.
Lemma number_encs l : forall o, zlen (flat_map renc (number o l)) = zlen (flat_map renc l).
Proof. induction l as [|b l IH]; intros o; [reflexivity|]. cbn [number flat_map]. rewrite !zlen_app, renc_same_len, IH. reflexivity. Qed.
Lemma stored_encs A : zlen (flat_map renc (stored_batches A)) <= zlen (flat_map renc (map v_batch A)).
Proof.
  induction A as [|v A IH]; [reflexivity|]. unfold stored_batches in *. cbn [filter map flat_map]. pose proof (renc_pos (v_batch v)).
  destruct (v_stored v); cbn [map flat_map]; rewrite !zlen_app; lia.
Qed.
Lemma uncut_fits c p s A r : uncut c p A -> one_response c p s r (number 0 (stored_batches A)).
Proof.
  intros [U|U]; [left; exact U|right]. unfold batches_between. etransitivity; [apply filter_encs|]. rewrite number_encs. etransitivity; [apply stored_encs|exact U].
Qed.

Section Consumer.
  Context (c : config) (p : params) (s : Z) (P : list client) (CO : config_ok c) (CL : Forall client_ok P) (S0 : 0 <= s) (NS : p_sm p = None).

  Lemma consumer_sees A y : world c p s P A (Open y) -> uncut c p A ->
    exists q e, consumed y = map Some (window s q (map snd (log_of A))) ++ e /\ s <= q <= log_limit (p_iso p) (y_store y)
      /\ (e = [] \/ e = [None] /\ y_pc y = Ended /\ q < get_log_start (y_store y)).
  Proof.
    intros W U. pose proof (world_kept _ _ _ _ _ _ CO CL W) as K. destruct (K_link _ _ _ _ _ _ K) as (r0 & H0 & HI & SL & RN).
    destruct (plain_safe c p s CO S0 NS r0 H0 _ y HI SL RN (uncut_fits c p s A _ U)) as (q & e & E & Q & D).
    exists q, (map (option_map plain_of) e). split; [|split; [exact Q|]].
    - unfold consumed. change (fun x => (fst x, payload_of (snd x))) with plain_of. rewrite E, map_app, consumed_some. f_equal. f_equal.
      rewrite window_between by (apply stored_good; apply (K_good _ _ _ _ _ _ K)). rewrite log_payloads. reflexivity.
    - destruct D as [->|(-> & D)]; [left; reflexivity|right; split; [reflexivity|exact D]].
  Qed.
  Lemma log_end A ph : world c p s P A ph -> get_leo (store_of ph) = zlen (log_of A).
  Proof.
    intros W. pose proof (world_kept _ _ _ _ _ _ CO CL W) as K. rewrite (kept_leo _ _ _ _ _ _ CO K). symmetry. apply log_length. apply (K_good _ _ _ _ _ _ K).
  Qed.
  Lemma consumer_sees_all A y : world c p s P A (Open y) -> uncut c p A -> quiet p y -> log_limit (p_iso p) (y_store y) = get_leo (y_store y) ->
    consumed y = map Some (window s (zlen (log_of A)) (map snd (log_of A))).
  Proof.
    intros W U QT LM. pose proof (world_kept _ _ _ _ _ _ CO CL W) as K. destruct (K_link _ _ _ _ _ _ K) as (r0 & H0 & HI & SL & RN).
    destruct (plain_complete c p s CO S0 NS r0 H0 _ y HI SL RN (uncut_fits c p s A _ U) QT) as (q & E & Q & D).
    pose proof (log_end _ _ W) as LE. cbn [store_of] in LE. pose proof (stored_good _ (K_good _ _ _ _ _ _ K)) as SG.
    unfold consumed. change (fun x => (fst x, payload_of (snd x))) with plain_of. rewrite E, consumed_some. f_equal. rewrite window_between by assumption. rewrite log_payloads.
    destruct (stored_batches A) as [|b l] eqn:SB; [reflexivity|]. replace (zlen (log_of A)) with q; [reflexivity|].
    pose proof (linked_logged _ _ _ _ _ CO (K_link _ _ _ _ _ _ K)) as LG. apply logged_chain in LG. cbn [store_of] in LG. rewrite SB in LG.
    destruct (exists_last (l := number 0 (b :: l))) as (X & z & EX); [discriminate|]. rewrite EX in LG, D. apply chain_split in LG as (m & _ & C2). cbn [chain] in C2. destruct C2 as (B1 & B2 & B3).
    specialize (D z ltac:(apply in_or_app; right; left; reflexivity)). unfold batch_end in D. lia.
  Qed.
  Lemma consumer_rests A y : world c p s P A (Open y) -> uncut c p A ->
    Acc (fun y' y => moves p s y y') y /\ ((forall y', ~ moves p s y y') -> quiet p y \/ y_pc y = Ended).
  Proof.
    intros W U. pose proof (world_kept _ _ _ _ _ _ CO CL W) as K. destruct (K_link _ _ _ _ _ _ K) as (r0 & H0 & HI & SL & RN).
    exact (plain_ends c p s CO S0 NS r0 H0 _ y HI SL RN (uncut_fits c p s A _ U)).
  Qed.

  (** * Receipts *)
  Lemma flush_attempts k force t l timer x1 x2 x3 st z : In z (s_sent (flush k force t l timer x1 x2 x3 st)) -> In z (s_sent st) \/ snd z = l.
  Proof.
    unfold flush. destruct l as [|a l]; [auto|]. destruct (take_ready k force (wall t) (s_queue st)) as [ready rest].
    destruct (send_request k (length ready) (a :: l)) as [copies x]. cbn [s_sent]. intros IN. apply in_app_or in IN as [IN|[<-|[]]]; auto.
  Qed.
  Lemma step_attempts k st e z : In z (s_sent (fst (pstep k st e))) -> In z (s_sent st) \/ attempts_of e = Some (snd z).
  Proof.
    destruct e as [r t1 t2 t3| | |t|t l|t l|t l]; cbn [pstep].
    - unfold push. destruct (s_error st); [cbn; auto|]. destruct (_ <=? _); [cbn; auto|]. destruct (accumulate _ _ _ _ _ _ _) as [[[q f] n] o]. cbn. auto.
    - cbn. auto.
    - cbn. auto.
    - destruct (0 <? s_new st); cbn; auto.
    - destruct (0 <? s_full st); cbn [fst attempts_of]; [|auto]. intros IN. apply flush_attempts in IN as [IN|IN]; [auto|right; congruence].
    - destruct (0 <? s_flush st); cbn [fst attempts_of]; [|auto]. intros IN. apply flush_attempts in IN as [IN|IN]; [auto|right; congruence].
    - destruct (s_timer st) as [d|]; cbn [fst attempts_of]; [|auto]. destruct (d <=? mono t); [|auto]. intros IN. apply flush_attempts in IN as [IN|IN]; [auto|right; congruence].
  Qed.
  Lemma run_attempts k l : forall st z, In z (s_sent (fst (prun k st l))) -> In z (s_sent st) \/ exists e, In e l /\ attempts_of e = Some (snd z).
  Proof.
    induction l as [|e l IH]; intros st z; cbn [prun]; [auto|]. destruct (pstep k st e) as [s1 o] eqn:E1. destruct (prun k s1 l) as [s2 os] eqn:E2. cbn [fst]. intros IN.
    assert (In z (s_sent (fst (prun k s1 l)))) as IN' by (rewrite E2; exact IN). apply IH in IN' as [IN'|(e' & I1 & I2)].
    - assert (In z (s_sent (fst (pstep k st e)))) as IN2 by (rewrite E1; exact IN'). apply step_attempts in IN2 as [IN2|IN2]; [auto|]. right. exists e. split; [left; reflexivity|assumption].
    - right. exists e'. split; [right; assumption|assumption].
  Qed.
  Lemma combine_nth_in {X Y} (l : list X) (m : list Y) : forall i x y, nth_error l i = Some x -> nth_error m i = Some y -> In (x, y) (combine l m).
  Proof.
    revert m. induction l as [|a l IH]; intros m i x y; [destruct i; discriminate|]. destruct m as [|b m]; [destruct i; discriminate|]. destruct i as [|i]; cbn [nth_error combine].
    - intros [= ->] [= ->]. left. reflexivity.
    - intros A B. right. eapply IH; eassumption.
  Qed.

  Lemma receipt_true A ph i a n id off x o : world c p s P A ph -> nth_error P i = Some a -> k_delivery (cl_conf a) = AtLeastOnce n -> heard i a A ->
    receipt (cl_events a) (returned a) id off x -> wait_for (final a) id off = Some (Some o) ->
    0 <= o /\ nth_error (log_of A) (Z.to_nat o) = Some (i, x).
  Proof.
    intros W NP DE (HE & HA) RC WF. pose proof (world_kept _ _ _ _ _ _ CO CL W) as K.
    destruct (client_in _ CL _ _ NP) as (T & KO & HT & OK).
    destruct (success_only _ T _ _ _ _ _ _ _ _ KO HT OK DE (client_run a) RC WF) as (q & at' & z & rs & j & b & S1 & S2 & S3 & S4 & S5 & S6).
    assert (at' = [mkAttempt true (Replied rs)]) as ->.
    { destruct (run_attempts (cl_conf a) (cl_events a) producer0 (q, at') S1) as [[]|(e & I1 & I2)]. cbn [snd] in I2. destruct (HE _ _ I1 I2) as (rs' & ->). destruct S2 as [S2|[]]. inversion S2. reflexivity. }
    assert (In (b, (o - off, NoError)) (replies a)) as IR.
    { unfold replies. apply in_flat_map. exists (q, [mkAttempt true (Replied rs)]). split; [exact S1|]. cbn [fst snd]. eapply combine_nth_in; eassumption. }
    rewrite <- HA in IR. apply in_map_iff in IR as (v & EV & IV). injection EV as EB EBA EC. apply filter_In in IV as (IV & IF). apply Nat.eqb_eq in IF.
    apply in_split in IV as (B & C & E). destruct (K_facts _ _ _ _ _ _ K _ _ _ E) as (F1 & _). destruct (F1 EC) as (VS & BA).
    assert (zlen (log_of B) = o - off) as LB.
    { rewrite log_length; [congruence|]. pose proof (K_good _ _ _ _ _ _ K) as G. rewrite E, map_app in G. apply Forall_app in G. tauto. }
    pose proof (zlen_nonneg (log_of B)) as NN. split; [lia|]. rewrite E, log_app. unfold zlen in LB. rewrite nth_error_app2 by lia.
    replace (Z.to_nat o - length (log_of B))%nat with (Z.to_nat off) by lia. unfold log_of. cbn [flat_map]. rewrite VS, EB, IF.
    assert (nth_error (map (pair i) (carried b)) (Z.to_nat off) = Some (i, x)) as N1 by (rewrite nth_error_map, S6; reflexivity).
    rewrite nth_error_app1 by (apply nth_error_Some; rewrite N1; discriminate). exact N1.
  Qed.
  Lemma enumerate_nth {X} (l : list X) : forall o n x, nth_error l n = Some x -> In (o + Z.of_nat n, x) (enumerate o l).
  Proof.
    induction l as [|y l IH]; intros o [|n] x; cbn [nth_error enumerate]; try discriminate.
    - intros [= ->]. left. f_equal. lia.
    - intros E. right. replace (o + Z.of_nat (S n)) with (o + 1 + Z.of_nat n) by lia. apply IH. assumption.
  Qed.
  Lemma receipt_seen A y i a n id off x o : world c p s P A (Open y) -> uncut c p A -> quiet p y -> log_limit (p_iso p) (y_store y) = get_leo (y_store y) ->
    nth_error P i = Some a -> k_delivery (cl_conf a) = AtLeastOnce n -> heard i a A ->
    receipt (cl_events a) (returned a) id off x -> wait_for (final a) id off = Some (Some o) -> s <= o ->
    In (Some (o, x)) (consumed y).
  Proof.
    intros W U QT LM NP DE HE RC WF SO. destruct (receipt_true _ _ _ _ _ _ _ _ _ W NP DE HE RC WF) as (O0 & N). rewrite (consumer_sees_all _ _ W U QT LM).
    apply in_map. unfold window. apply filter_In. split.
    - pose proof (enumerate_nth (map snd (log_of A)) 0 (Z.to_nat o) x ltac:(rewrite nth_error_map, N; reflexivity)) as X. rewrite Z2Nat.id in X by lia. exact X.
    - cbn [fst]. assert (Z.to_nat o < length (log_of A))%nat by (apply nth_error_Some; rewrite N; discriminate). unfold zlen. lia.
  Qed.
End Consumer.

(** * Two producers and a consumer that starts between them *)
Lemma world_drive c p s P A n : forall y, world c p s P A (Open y) -> world c p s P A (Open (drive p s n y)).
Proof.
  induction n as [|n IH]; intros y R; [exact R|]. cbn [drive]. destruct (next_move p s y) as [y'|] eqn:E; [|exact R].
  apply IH. eapply w_move; [exact R|]. apply next_moves. assumption.
Qed.
Definition one_sent : list pevent := [Push small (at_ 1) (at_ 1) (at_ 1); TakeNew (at_ 2); Linger (at_ 200) [ok_reply [(2, NoError)]]].
Definition end_P : list client := [mkClient two_k two_sent; mkClient two_k one_sent].
Definition end_p : params := mkParams ReadCommitted 1000 None.
Definition sent_of (n : nat) : batch bytes := hd (to_raw (batch_from [])) (on_wire (nth n end_P (mkClient two_k []))).
Definition end_1 := serve demo_c ReadUncommitted 0 1 (Some None) None [] (fresh demo_c 0) 0 (sent_of 0).
Definition end_2 := serve demo_c ReadUncommitted 0 1 (Some None) None [] (fst end_1) 1 (sent_of 1).
Definition end_A : list arrival := [snd end_1; snd end_2].
Definition end_y : sys := drive end_p 1 50 (set_store (start_stream (fst end_1) 1) (fst end_2)).
Lemma one_ok : events_ok 1000 one_sent.
Proof. unfold events_ok, one_sent. events_tac. Qed.
Lemma two_ok : events_ok 1000 two_sent.
Proof. unfold events_ok, two_sent. events_tac. Qed.
Lemma end_clients : Forall client_ok end_P.
Proof.
  constructor; [|constructor; [|constructor]]; (exists 1000; split; [apply pk_ok; reflexivity|]; split; [lia|]); [exact two_ok|exact one_ok].
Qed.
Lemma end_world : world demo_c end_p 1 end_P end_A (Open end_y).
Proof.
  unfold end_y. apply world_drive. change (Open (set_store (start_stream (fst end_1) 1) (fst end_2))) with (with_log (Open (start_stream (fst end_1) 1)) (fst end_2)).
  change end_A with ([snd end_1] ++ [snd end_2]).
  eapply w_serve with (i := 1%nat) (b := sent_of 1) (rest := []) (iso := ReadUncommitted) (now := 0) (isr := 1) (comp := Some None) (first := None) (later := []).
  - apply w_open; [|vm_compute; congruence]. change (Before (fst end_1)) with (with_log (Before (fresh demo_c 0)) (fst end_1)). change [snd end_1] with ([] ++ [snd end_1]).
    eapply w_serve with (i := 0%nat) (b := sent_of 0) (rest := []) (iso := ReadUncommitted) (now := 0) (isr := 1) (comp := Some None) (first := None) (later := []).
    + apply w_new.
    + reflexivity.
    + vm_compute. reflexivity.
    + vm_compute. auto.
    + unfold end_1. cbn [store_of]. destruct (serve _ _ _ _ _ _ _ _ _ _). reflexivity.
  - reflexivity.
  - vm_compute. reflexivity.
  - vm_compute. auto.
  - unfold end_2. cbn [store_of]. change (y_store (start_stream (fst end_1) 1)) with (fst end_1). destruct (serve _ _ _ _ _ _ _ _ _ _). reflexivity.
Qed.
Lemma end_demo : quiet end_p end_y /\ uncut demo_c end_p end_A /\ log_limit (p_iso end_p) (y_store end_y) = get_leo (y_store end_y)
  /\ log_of end_A = [(0%nat, payload_of big); (0%nat, payload_of small); (1%nat, payload_of small)]
  /\ consumed end_y = [Some (1, payload_of small); Some (2, payload_of small)].
Proof.
  split; [unfold end_y; apply quiet_drive; [vm_compute; reflexivity|vm_compute; discriminate]|]. split; [left; vm_compute; congruence|]. split; [vm_compute; reflexivity|]. split; vm_compute; reflexivity.
Qed.
Lemma end_heard : exists a, nth_error end_P 0 = Some a /\ k_delivery (cl_conf a) = AtLeastOnce 3 /\ smooth (cl_events a) /\ steady (cl_events a)
  /\ idle (final a) /\ all_stored 0 a end_A /\ heard 0 a end_A /\ receipt (cl_events a) (returned a) 0 1 (payload_of small) /\ wait_for (final a) 0 1 = Some (Some 1)
  /\ pushed_by a = [payload_of big; payload_of small].
Proof.
  exists (mkClient two_k two_sent). split; [reflexivity|]. split; [reflexivity|]. split; [unfold smooth; cbn [cl_events two_sent]; attempts_tac|].
  split.
  { unfold steady. cbn [cl_events two_sent flat_map readings_of app]. repeat (constructor; [|repeat (constructor; [vm_compute; split; congruence|]); constructor]). constructor. }
  split; [vm_compute; auto|]. split; [split; [vm_compute; reflexivity|vm_compute; repeat constructor]|]. split; [split|].
  - intros e l IN. cbn [cl_events two_sent In] in IN. repeat (destruct IN as [<-|IN]; [cbn [attempts_of]; try discriminate; intros [= <-]; eexists; reflexivity|]). destruct IN.
  - vm_compute. reflexivity.
  - split; [|split; vm_compute; reflexivity]. exists 1%nat. do 4 eexists. split; [reflexivity|]. split; vm_compute; reflexivity.
Qed.

(** A request that is sent again because the answer was lost *)
Definition again : client := mkClient demo_k [Push small (at_ 0) (at_ 0) (at_ 0); TakeNew (at_ 0); Linger (at_ 100) [mkAttempt true Retryable; ok_reply [(1, NoError)]]].
Definition again_b : batch bytes := hd (to_raw (batch_from [])) (on_wire again).
Definition again_1 := serve demo_c ReadUncommitted 0 1 (Some None) None [] (fresh demo_c 0) 0 again_b.
Definition again_2 := serve demo_c ReadUncommitted 0 1 (Some None) None [] (fst again_1) 0 again_b.
Definition again_y : sys := drive end_p 0 50 (start_stream (fst again_2) 0).
Lemma again_world : world demo_c end_p 0 [again] [snd again_1; snd again_2] (Open again_y).
Proof.
  unfold again_y. apply world_drive. apply w_open; [|vm_compute; congruence].
  change (Before (fst again_2)) with (with_log (Before (fst again_1)) (fst again_2)). change [snd again_1; snd again_2] with ([snd again_1] ++ [snd again_2]).
  eapply w_serve with (i := 0%nat) (b := again_b) (rest := []) (iso := ReadUncommitted) (now := 0) (isr := 1) (comp := Some None) (first := None) (later := []).
  - change (Before (fst again_1)) with (with_log (Before (fresh demo_c 0)) (fst again_1)). change [snd again_1] with ([] ++ [snd again_1]).
    eapply w_serve with (i := 0%nat) (b := again_b) (rest := [again_b]) (iso := ReadUncommitted) (now := 0) (isr := 1) (comp := Some None) (first := None) (later := []).
    + apply w_new.
    + reflexivity.
    + vm_compute. reflexivity.
    + vm_compute. auto.
    + unfold again_1. cbn [store_of]. destruct (serve _ _ _ _ _ _ _ _ _ _). reflexivity.
  - reflexivity.
  - vm_compute. reflexivity.
  - vm_compute. auto.
  - unfold again_2. cbn [store_of]. destruct (serve _ _ _ _ _ _ _ _ _ _). reflexivity.
Qed.
Lemma twice_refuted : exists c p a A y x, config_ok c /\ client_ok a /\ p_sm p = None /\ world c p 0 [a] A (Open y) /\ uncut c p A
  /\ pushed_by a = [x] /\ consumed y = [Some (0, x); Some (1, x)].
Proof.
  exists demo_c, end_p, again, [snd again_1; snd again_2], again_y, (payload_of small). split; [exact demo_c_ok|]. split.
  { exists 1000. split; [apply pk_ok; reflexivity|]. split; [lia|]. cbn [again cl_events]. unfold events_ok. events_tac. }
  split; [reflexivity|]. split; [exact again_world|]. split; [left; vm_compute; congruence|]. split; vm_compute; reflexivity.
Qed.
