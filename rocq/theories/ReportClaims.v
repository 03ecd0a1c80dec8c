From Verif Require Import Base ControlModel ReportModel ReportSpec ReportProofs.
From Coq Require Import Lia.

(** ** The invariant of careful runs *)

Definition agrees (t : stage) (i : lead_info) : Prop :=
  match t with
  | T0 => True
  | T1 l => l = lr_leader (report_of i)
  | T2 l f => l = lr_leader (report_of i) /\ f = lr_replicas (report_of i)
  | T3 r => r = report_of i
  end.
Definition settled (s : reps) (k : Z) (i : lead_info) : Prop :=
  (forall sh, In (k, sh) (m_marks s) -> reflects sh i) /\
  match last_of k (m_queue s) with
  | Some sh => reflects sh i
  | None => forall sh, In (k, sh) (m_store s) -> reflects sh i
  end.
Definition current (s : reps) (k : Z) (i : lead_info) : Prop :=
  In k (keys (m_tasks s)) \/
  match last_of k (flying s ++ m_sink s) with
  | Some r => r = report_of i
  | None => settled s k i
  end.

Record inv (s : reps) : Prop := {
  v_lead : NoDup (keys (m_lead s));
  v_sound : forall k i, In (k, i) (m_lead s) -> sound i;
  v_once : NoDup (keys (m_tasks s));
  v_tasks : forall k t, In (k, t) (m_tasks s) -> exists i, In (k, i) (m_lead s) /\ agrees t i;
  v_store : NoDup (keys (m_store s));
  v_known : forall k, In k (keys (m_lead s)) \/ In k (keys (flying s ++ m_sink s)) -> In k (keys (m_store s));
  v_reports : forall k r, In (k, r) (flying s ++ m_sink s) -> exists i, sound i /\ r = report_of i;
  v_tidy : forall k sh, In (k, sh) (m_store s ++ m_marks s ++ m_queue s) -> tidy sh;
  v_current : forall k i, In (k, i) (m_lead s) -> current s k i }.

Lemma sound_lead : forall s k i, inv s -> In (k, i) (m_lead s) -> sound i.
Proof. intros s k i V. apply (v_sound s V). Qed.

Lemma split_nth : forall A (l : list A) n x, nth_error l n = Some x -> l = firstn n l ++ x :: skipn (S n) l.
Proof.
  intros A l. induction l as [|a l IH]; intros [|n] x H; cbn in *; try discriminate; [congruence|].
  f_equal. apply IH, H.
Qed.

Lemma last_one : forall A k x (a : A), last_of k [(x, a)] = if x =? k then Some a else None.
Proof. intros A k x a. unfold last_of, look. cbn. destruct (x =? k); reflexivity. Qed.

Lemma inv_step : forall s a s', inv s -> careful s a -> mstep s a = Some s' -> inv s'.
Proof.
  intros [lead tasks sink wire store marks queue] a s' [V1 V2 V3 V4 V5 V6 V7 V8 V9] C H.
  unfold current, settled, flying in *. cbn [m_lead m_tasks m_sink m_wire m_store m_marks m_queue] in *.
  destruct a; cbn [mstep careful m_lead m_tasks m_sink m_wire m_store m_marks m_queue] in *.
  - (* MNew *)
    destruct (look k store) eqn:E; [discriminate|]. apply look_none in E. injection H as <-.
    split; unfold current, settled, flying; cbn [m_lead m_tasks m_sink m_wire m_store m_marks m_queue]; auto.
    + apply nodup_snoc_key; assumption.
    + intros k' HK. rewrite keys_app. apply in_or_app. left. auto.
    + intros k' sh HI. rewrite <- app_assoc in HI. apply in_app_or in HI as [HI|[HI|HI]].
      * eapply V8. apply in_or_app. left. exact HI.
      * injection HI as <- <-. split; cbn; [constructor|tauto].
      * eapply V8. apply in_or_app. right. exact HI.
    + intros k' i HI. destruct (V9 _ _ HI) as [G|G]; [left; exact G|right].
      destruct (last_of k' _); [exact G|]. destruct G as [G1 G2]. split; [exact G1|].
      destruct (last_of k' queue); [exact G2|]. intros sh HS. apply in_app_or in HS as [HS|[HS|[]]]; [auto|].
      injection HS as <- <-. exfalso. apply E. apply V6. left. eapply in_keys, HI.
  - (* MDrop *)
    destruct C as (C1 & C2 & C3 & C4). injection H as <-.
    split; unfold current, settled, flying; cbn [m_lead m_tasks m_sink m_wire m_store m_marks m_queue]; auto.
    + apply nodup_filter_key, V5.
    + intros k' HK. apply keys_filter. split; [auto|]. intros ->. destruct HK as [HK|HK]; [contradiction|].
      rewrite keys_app in HK. apply in_app_or in HK as [HK|HK]; contradiction.
    + intros k' sh HI. eapply V8. apply in_app_or in HI as [HI|HI]; apply in_or_app; [left|right; exact HI].
      apply in_filter_key in HI as [HI _]. exact HI.
    + intros k' i HI. destruct (V9 _ _ HI) as [G|G]; [left; exact G|right].
      destruct (last_of k' _); [exact G|]. destruct G as [G1 G2]. split; [exact G1|].
      destruct (last_of k' queue); [exact G2|]. intros sh HS. apply in_filter_key in HS as [HS _]. auto.
  - (* MLead *)
    destruct C as (C1 & C2 & C3). destruct (look k lead) eqn:E; [discriminate|]. apply look_none in E. injection H as <-.
    split; unfold current, settled, flying; cbn [m_lead m_tasks m_sink m_wire m_store m_marks m_queue]; auto.
    + apply nodup_snoc_key; assumption.
    + intros k' i' HI. apply in_app_or in HI as [HI|[HI|[]]]; [eauto|]. injection HI as <- <-. exact C1.
    + apply nodup_snoc_key; assumption.
    + intros k' t HI. apply in_app_or in HI as [HI|[HI|[]]].
      * destruct (V4 _ _ HI) as (i' & G1 & G2). exists i'. split; [apply in_or_app; left; exact G1|exact G2].
      * injection HI as <- <-. exists i. split; [apply in_or_app; right; left; reflexivity|exact I].
    + intros k' [HK|HK]; [|auto]. rewrite keys_app in HK. apply in_app_or in HK as [HK|[<-|[]]]; auto.
    + intros k' i' HI. rewrite keys_app. apply in_app_or in HI as [HI|[HI|[]]].
      * destruct (V9 _ _ HI) as [G|G]; [left; apply in_or_app; left; exact G|right; exact G].
      * injection HI as <- <-. left. apply in_or_app. right. left. reflexivity.
  - (* MStop *)
    injection H as <-.
    split; unfold current, settled, flying; cbn [m_lead m_tasks m_sink m_wire m_store m_marks m_queue]; auto.
    + apply nodup_filter_key, V1.
    + intros k' i HI. apply in_filter_key in HI as [HI _]. eauto.
    + intros k' t HI. destruct (V4 _ _ HI) as (i' & G1 & G2). exists i'. split; [|exact G2].
      apply in_filter_key. split; [exact G1|]. intros ->. apply C. eapply in_keys, HI.
    + intros k' [HK|HK]; [|auto]. apply keys_filter in HK as [HK _]. auto.
    + intros k' i HI. apply in_filter_key in HI as [HI _]. auto.
  - (* MChange *)
    destruct C as (C1 & C2). destruct (look k lead) as [i0|] eqn:E; [|discriminate]. apply look_in in E. injection H as <-.
    split; unfold current, settled, flying; cbn [m_lead m_tasks m_sink m_wire m_store m_marks m_queue]; auto.
    + rewrite set_in_keys. exact V1.
    + intros k' i' HI. apply in_set_in in HI as [[-> ->]|[_ HI]]; eauto.
    + apply nodup_snoc_key; assumption.
    + intros k' t HI. apply in_app_or in HI as [HI|[HI|[]]].
      * destruct (V4 _ _ HI) as (i' & G1 & G2). exists i'. split; [|exact G2]. apply set_in_other; [exact G1|].
        intros ->. apply C2. eapply in_keys, HI.
      * injection HI as <- <-. exists i. split; [|exact I]. apply set_in_same. eapply in_keys, E.
    + rewrite set_in_keys. exact V6.
    + intros k' i' HI. rewrite keys_app. apply in_set_in in HI as [[-> ->]|[_ HI]].
      * left. apply in_or_app. right. left. reflexivity.
      * destruct (V9 _ _ HI) as [G|G]; [left; apply in_or_app; left; exact G|right; exact G].
  - destruct C.
  - (* MTask *)
    destruct (nth_error tasks n) as [[k t]|] eqn:EN; [|discriminate]. apply split_nth in EN.
    set (l1 := firstn n tasks) in *. set (l2 := skipn (S n) tasks) in *.
    assert (HT : In (k, t) tasks) by (rewrite EN; apply in_or_app; right; left; reflexivity).
    destruct (V4 _ _ HT) as (i & HL & AG). pose proof (look_once _ _ _ _ V1 HL) as EL. rewrite EL in H.
    assert (NK : ~ In k (keys (l1 ++ l2))).
    { rewrite EN in V3. unfold keys in *. rewrite map_app in *. cbn in V3. apply NoDup_remove_2 in V3. exact V3. }
    assert (NR : NoDup (keys (l1 ++ l2))).
    { rewrite EN in V3. unfold keys in *. rewrite map_app in *. cbn in V3. apply NoDup_remove_1 in V3. exact V3. }
    assert (SUB : forall k' t', In (k', t') (l1 ++ l2) -> In (k', t') tasks).
    { intros k' t' HI. rewrite EN. apply in_app_or in HI as [HI|HI]; apply in_or_app; [left|right; right]; exact HI. }
    assert (OTH : forall k', k' <> k -> In k' (keys tasks) -> In k' (keys (l1 ++ l2))).
    { intros k' N HI. rewrite EN in HI. rewrite keys_app in HI |- *. cbn in HI. apply in_app_or in HI as [HI|[HI|HI]]; apply in_or_app; auto; congruence. }
    assert (STEP : t = T0 \/ (exists l, t = T1 l) \/ (exists l f, t = T2 l f) ->
      inv (mkM lead (l1 ++ (k, advance i t) :: l2) sink wire store marks queue)).
    { intros ST.
      assert (EK : keys (l1 ++ (k, advance i t) :: l2) = keys tasks)
        by (rewrite EN; unfold keys; rewrite !map_app; reflexivity).
      split; unfold current, settled, flying; cbn [m_lead m_tasks m_sink m_wire m_store m_marks m_queue]; rewrite ?EK; auto.
      intros k' t' HI. apply in_app_or in HI as [HI|[HI|HI]].
      - eapply V4, SUB, in_or_app. left. exact HI.
      - injection HI as <- <-. exists i. split; [exact HL|].
        destruct ST as [->|[(l & ->)|(l & f & ->)]]; cbn in *; auto. destruct AG as [-> ->]. reflexivity.
      - eapply V4, SUB, in_or_app. right. exact HI. }
    destruct t as [|l|l f|r]; try (injection H as <-; apply STEP; eauto; fail).
    injection H as <-. cbn in AG. subst r.
    split; unfold current, settled, flying; cbn [m_lead m_tasks m_sink m_wire m_store m_marks m_queue]; auto.
    + intros k' HK. apply V6. destruct HK as [HK|HK]; [left; exact HK|]. rewrite keys_app in HK. rewrite keys_app.
      unfold replace in HK. rewrite keys_app in HK. apply in_app_or in HK as [HK|HK]; [right; apply in_or_app; left; exact HK|].
      apply in_app_or in HK as [HK|[<-|[]]].
      * apply keys_filter in HK as [HK _]. right. apply in_or_app. right. exact HK.
      * left. eapply in_keys, HL.
    + intros k' r HI. apply in_app_or in HI as [HI|HI]; [eapply V7, in_or_app; left; exact HI|].
      unfold replace in HI. apply in_app_or in HI as [HI|[HI|[]]].
      * apply in_filter_key in HI as [HI _]. eapply V7, in_or_app. right. exact HI.
      * injection HI as <- <-. exists i. split; [eauto|reflexivity].
    + intros k' i' HI. unfold replace. rewrite app_assoc, last_app, last_one.
      destruct (Z.eqb_spec k k') as [<-|NE].
      * right. rewrite (key_once _ _ _ _ _ V1 HI HL). reflexivity.
      * destruct (V9 _ _ HI) as [G|G]; [left; apply OTH; [congruence|exact G]|right].
        rewrite last_app, last_filter by congruence. rewrite last_app in G. exact G.
  - (* MTick *)
    destruct wire as [w|]; [|discriminate]. injection H as <-.
    assert (EF : concat (w ++ [sink]) ++ [] = concat w ++ sink) by (rewrite concat_app; cbn; rewrite !app_nil_r; reflexivity).
    split; unfold current, settled, flying; cbn [m_lead m_tasks m_sink m_wire m_store m_marks m_queue]; rewrite ?EF; auto.
  - (* MLost *)
    destruct C as [C1 C2]. destruct wire as [w|]; [|discriminate]. injection H as <-. cbn in C2. rewrite C2 in *. subst sink.
    split; unfold current, settled, flying; cbn [m_lead m_tasks m_sink m_wire m_store m_marks m_queue]; auto.
  - (* MBreak *)
    injection H as <-. unfold flying in C; cbn [m_wire] in C. rewrite C in *.
    split; unfold current, settled, flying; cbn [m_lead m_tasks m_sink m_wire m_store m_marks m_queue]; auto.
  - (* MConnect *)
    destruct wire as [w|]; [discriminate|]. injection H as <-.
    split; unfold current, settled, flying; cbn [m_lead m_tasks m_sink m_wire m_store m_marks m_queue concat]; auto.
  - (* MReceive *)
    destruct wire as [[|msg w]|]; try discriminate. injection H as <-. cbn [concat] in *.
    assert (KN : forall k, In k (keys msg) -> In k (keys store)).
    { intros k HK. apply V6. right. rewrite !keys_app. apply in_or_app. left. apply in_or_app. left. exact HK. }
    destruct (merge_all_some _ _ KN) as (l & EM). rewrite EM.
    assert (KL : forall k r, In (k, r) msg -> exists i, sound i /\ r = report_of i).
    { intros k r HI. eapply V7. apply in_or_app. left. apply in_or_app. left. exact HI. }
    split; unfold current, settled, flying; cbn [m_lead m_tasks m_sink m_wire m_store m_marks m_queue]; auto.
    + intros k HK. apply V6. destruct HK as [HK|HK]; [left; exact HK|right]. rewrite <- app_assoc, keys_app. apply in_or_app. right. exact HK.
    + intros k r HI. eapply V7. rewrite <- app_assoc. apply in_or_app. right. exact HI.
    + intros k sh HI. rewrite !in_app_iff in HI. destruct HI as [HI|[HI|[HI|HI]]].
      1-3: eapply V8; rewrite !in_app_iff; eauto.
      destruct (merge_all_in _ _ _ _ _ EM HI) as (sh0 & r & A & B & ->). destruct (KL _ _ B) as (i & SI & ->).
      apply merge_reflects; [exact SI|]. eapply V8. apply in_or_app. left. exact A.
    + intros k i HI. destruct (V9 _ _ HI) as [G|G]; [left; exact G|right].
      rewrite <- app_assoc, last_app in G. destruct (last_of k (concat w ++ sink)) as [r|]; [exact G|].
      rewrite last_app, (merge_all_last _ _ _ k EM). destruct (last_of k msg) as [r|] eqn:EL.
      * apply last_in in EL. destruct (look_some _ k store (KN _ (in_keys _ _ _ _ EL))) as (sh & ES). rewrite ES. cbn. subst r.
        split.
        -- intros sh' HM. exfalso. apply (C k (in_keys _ _ _ _ HM)). eapply in_keys, EL.
        -- apply merge_reflects; [eauto|]. eapply V8. apply in_or_app. left. apply look_in, ES.
      * exact G.
  - (* MMark *)
    destruct (look k store) as [sh|] eqn:E; [|discriminate]. apply look_in in E. injection H as <-.
    split; unfold current, settled, flying; cbn [m_lead m_tasks m_sink m_wire m_store m_marks m_queue]; auto.
    + intros k' sh' HI. rewrite !in_app_iff in HI. destruct HI as [HI|[[HI|[HI|[]]]|HI]].
      1,2,4: eapply V8; rewrite !in_app_iff; eauto.
      injection HI as <- <-. apply mark_tidy. eapply V8. apply in_or_app. left. exact E.
    + intros k' i HI. destruct (V9 _ _ HI) as [G|G]; [left; exact G|right].
      destruct (last_of k' _); [exact G|]. destruct G as [G1 G2]. split; [|exact G2].
      intros sh' HM. apply in_app_or in HM as [HM|[HM|[]]]; [auto|]. injection HM as <- <-. apply mark_reflects.
      apply last_none in C. rewrite C in G2. auto.
  - (* MSendMark *)
    destruct marks as [|[k sh] t]; [discriminate|]. injection H as <-.
    split; unfold current, settled, flying; cbn [m_lead m_tasks m_sink m_wire m_store m_marks m_queue]; auto.
    + intros k' sh' HI. eapply V8. rewrite !in_app_iff in *. cbn [In] in *. destruct HI as [HI|[HI|[HI|[HI|[]]]]]; eauto.
    + intros k' i HI. destruct (V9 _ _ HI) as [G|G]; [left; exact G|right].
      destruct (last_of k' _); [exact G|]. destruct G as [G1 G2]. split; [intros sh' HM; apply G1; right; exact HM|].
      rewrite last_app, last_one.
      destruct (Z.eqb_spec k k') as [<-|NE]; [apply G1; left; reflexivity|exact G2].
  - (* MApply *)
    destruct queue as [|[k sh] t]; [discriminate|]. injection H as <-.
    split; unfold current, settled, flying; cbn [m_lead m_tasks m_sink m_wire m_store m_marks m_queue]; auto.
    + rewrite set_in_keys. exact V5.
    + intros k' HK. rewrite set_in_keys. auto.
    + intros k' sh' HI. rewrite !in_app_iff in HI. destruct HI as [HI|[HI|HI]].
      * apply in_set_in in HI as [[-> ->]|[_ HI]]; eapply V8; rewrite !in_app_iff; cbn [In]; eauto.
      * eapply V8; rewrite !in_app_iff; cbn [In]; eauto.
      * eapply V8; rewrite !in_app_iff; cbn [In]; eauto.
    + intros k' i HI. destruct (V9 _ _ HI) as [G|G]; [left; exact G|right].
      destruct (last_of k' (_ ++ sink)); [exact G|]. destruct G as [G1 G2]. split; [exact G1|].
      rewrite last_cons in G2. destruct (last_of k' t); [exact G2|].
      intros sh' HS. apply in_set_in in HS as [[-> ->]|[N HS]].
      * rewrite Z.eqb_refl in G2. exact G2.
      * destruct (Z.eqb_spec k k'); [congruence|]. auto.
  - (* MRestart *)
    injection H as <-.
    split; unfold current, settled, flying; cbn [m_lead m_tasks m_sink m_wire m_store m_marks m_queue]; auto; try (intros; contradiction).
    + constructor.
    + constructor.
    + intros k [[]|[]].
  - (* MScRestart *)
    destruct C as (C1 & C2 & C3). injection H as <-. unfold flying in C1; cbn [m_wire] in C1. subst marks queue. rewrite C1 in *.
    split; unfold current, settled, flying; cbn [m_lead m_tasks m_sink m_wire m_store m_marks m_queue]; auto.
Qed.

Lemma mruns_inv : forall (ok : reps -> rep_act -> Prop) (J : reps -> Prop) s0,
  J s0 -> (forall s a s', J s -> ok s a -> mstep s a = Some s' -> J s') -> forall s, mruns ok s0 s -> J s.
Proof.
  intros ok J s0 H0 HS s R. induction R as [|a s1 s2 R IH OK ST]; [exact H0|]. eapply HS; eassumption.
Qed.
Lemma inv_start : inv nothing.
Proof. split; cbn; try constructor; try contradiction. intros k [[]|[]]. Qed.
Lemma inv_runs : forall s, mruns careful nothing s -> inv s.
Proof. apply mruns_inv; [exact inv_start|]. intros s a s' V C H. eapply inv_step; eassumption. Qed.

Lemma shown_right : forall s k i, mruns careful nothing s -> quiet s -> In (k, i) (m_lead s) ->
  (exists sh, In (k, sh) (m_store s)) /\ forall sh, In (k, sh) (m_store s) -> reflects sh i.
Proof.
  intros s k i R (QT & QS & QW & QM & QQ) HI. pose proof (inv_runs _ R) as V.
  split; [apply keys_in, (v_known _ V); left; eapply in_keys, HI|].
  assert (QF : flying s = []) by (unfold flying; destruct QW as [-> | ->]; reflexivity).
  destruct (v_current _ V _ _ HI) as [G|G]; [rewrite QT in G; destruct G|]. rewrite QF, QS in G. cbn in G.
  destruct G as [_ G]. rewrite QQ in G. exact G.
Qed.

(** ** What is under way gets done *)

Definition forward (s : reps) (a : rep_act) : Prop := onward a /\ careful s a.
Lemma mruns_trans : forall ok s1 s2 s3, mruns ok s1 s2 -> mruns ok s2 s3 -> mruns ok s1 s3.
Proof. intros ok s1 s2 s3 R1 R2. induction R2; [exact R1|]. eapply mruns_step; eassumption. Qed.
Lemma mruns_one : forall (ok : reps -> rep_act -> Prop) s a s', ok s a -> mstep s a = Some s' -> mruns ok s s'.
Proof. intros ok s a s' O S. eapply mruns_step; [apply mruns_start|exact O|exact S]. Qed.
Ltac ahead a := eapply (mruns_one _ _ a); [split; [exact I|]|].

Lemma one_task : forall lead k t tasks sink wire store marks queue,
  exists sink', mruns forward (mkM lead ((k, t) :: tasks) sink wire store marks queue) (mkM lead tasks sink' wire store marks queue).
Proof.
  intros lead k t tasks sink wire store marks queue.
  destruct (look k lead) as [i|] eqn:E.
  - assert (D3 : forall r, exists sink', mruns forward (mkM lead ((k, T3 r) :: tasks) sink wire store marks queue) (mkM lead tasks sink' wire store marks queue)).
    { intros r. eexists. ahead (MTask 0); [exact I|reflexivity]. }
    assert (ADV : forall t, (forall r, t <> T3 r) -> mruns forward (mkM lead ((k, t) :: tasks) sink wire store marks queue)
                    (mkM lead ((k, advance i t) :: tasks) sink wire store marks queue)).
    { intros u NU. ahead (MTask 0); [exact I|]. cbn. rewrite E. destruct u; try reflexivity. exfalso. eapply NU. reflexivity. }
    assert (D2 : forall l f, exists sink', mruns forward (mkM lead ((k, T2 l f) :: tasks) sink wire store marks queue) (mkM lead tasks sink' wire store marks queue)).
    { intros l f. destruct (D3 {| lr_leader := l; lr_replicas := f; lr_size := li_size i; lr_base := li_base i |}) as (x & R). exists x.
      eapply mruns_trans; [apply ADV; discriminate|exact R]. }
    assert (D1 : forall l, exists sink', mruns forward (mkM lead ((k, T1 l) :: tasks) sink wire store marks queue) (mkM lead tasks sink' wire store marks queue)).
    { intros l. destruct (D2 l (li_followers i)) as (x & R). exists x. eapply mruns_trans; [apply ADV; discriminate|exact R]. }
    destruct t as [|l|l f|r]; auto. destruct (D1 {| r_spu := li_me i; r_hw := li_hw i; r_leo := li_leo i |}) as (x & R). exists x.
    eapply mruns_trans; [apply ADV; discriminate|exact R].
  - destruct t as [|l|l f|r]; eexists; (ahead (MTask 0); [exact I|cbn; rewrite ?E; reflexivity]).
Qed.
Lemma all_tasks : forall tasks lead sink wire store marks queue,
  exists sink', mruns forward (mkM lead tasks sink wire store marks queue) (mkM lead [] sink' wire store marks queue).
Proof.
  induction tasks as [|[k t] tasks IH]; intros; [eexists; apply mruns_start|].
  destruct (one_task lead k t tasks sink wire store marks queue) as (x & R1).
  destruct (IH lead x wire store marks queue) as (y & R2). exists y. eapply mruns_trans; eassumption.
Qed.
Lemma all_marks : forall marks lead sink wire store queue,
  exists queue', mruns forward (mkM lead [] sink wire store marks queue) (mkM lead [] sink wire store [] queue').
Proof.
  induction marks as [|x marks IH]; intros; [eexists; apply mruns_start|].
  destruct (IH lead sink wire store (queue ++ [x])) as (y & R2). exists y. eapply mruns_trans; [|exact R2].
  ahead MSendMark; [exact I|reflexivity].
Qed.
Lemma all_wire : forall w lead store queue,
  exists queue', mruns forward (mkM lead [] [] (Some w) store [] queue) (mkM lead [] [] (Some []) store [] queue').
Proof.
  induction w as [|msg w IH]; intros; [eexists; apply mruns_start|].
  destruct (IH lead store (queue ++ match merge_all store msg with Some l => l | None => [] end)) as (y & R2).
  exists y. eapply mruns_trans; [|exact R2]. ahead MReceive; [intros k []|reflexivity].
Qed.
Lemma all_queue : forall queue lead store,
  exists store', mruns forward (mkM lead [] [] (Some []) store [] queue) (mkM lead [] [] (Some []) store' [] []).
Proof.
  induction queue as [|[k sh] queue IH]; intros; [eexists; apply mruns_start|].
  destruct (IH lead (set_in k sh store)) as (y & R2). exists y. eapply mruns_trans; [|exact R2]. ahead MApply; [exact I|reflexivity].
Qed.
Lemma gets_quiet : forall s, exists s', mruns forward s s' /\ quiet s' /\ m_lead s' = m_lead s.
Proof.
  intros [lead tasks sink wire store marks queue].
  destruct (all_tasks tasks lead sink wire store marks queue) as (s1 & R1).
  destruct (all_marks marks lead s1 wire store queue) as (q1 & R2).
  assert (R3 : exists w, mruns forward (mkM lead [] s1 wire store [] q1) (mkM lead [] s1 (Some w) store [] q1)).
  { destruct wire as [w|]; [exists w; apply mruns_start|]. exists []. ahead MConnect; [exact I|reflexivity]. }
  destruct R3 as (w & R3).
  assert (R4 : mruns forward (mkM lead [] s1 (Some w) store [] q1) (mkM lead [] [] (Some (w ++ [s1])) store [] q1))
    by (ahead MTick; [exact I|reflexivity]).
  destruct (all_wire (w ++ [s1]) lead store q1) as (q2 & R5).
  destruct (all_queue q2 lead store) as (st & R6).
  exists (mkM lead [] [] (Some []) st [] []). split; [|split; [|reflexivity]].
  - eapply mruns_trans; [exact R1|]. eapply mruns_trans; [exact R2|]. eapply mruns_trans; [exact R3|].
    eapply mruns_trans; [exact R4|]. eapply mruns_trans; [exact R5|exact R6].
  - unfold quiet; cbn. auto 6.
Qed.

(** ** Reports are not repeated *)

Definition alike (a b : shown) : Prop :=
  st_leader (sh_part a) = st_leader (sh_part b) /\ st_replicas (sh_part a) = st_replicas (sh_part b) /\ sh_size a = sh_size b.
Definition idle_inv (s0 s : reps) : Prop :=
  m_tasks s = [] /\ m_sink s = [] /\ (forall w, m_wire s = Some w -> Forall (fun m => m = []) w) /\
  m_lead s = m_lead s0 /\ keys (m_store s) = keys (m_store s0) /\
  forall k sh, In (k, sh) (m_store s ++ m_marks s ++ m_queue s) -> exists sh0, In (k, sh0) (m_store s0) /\ alike sh sh0.

Lemma quiet_stays : forall s s', quiet s -> mruns (fun _ a => passive a) s s' -> idle_inv s s'.
Proof.
  intros s s' (QT & QS & QW & QM & QQ) R. revert s' R. apply mruns_inv.
  - split; [exact QT|]. split; [exact QS|]. split; [intros w E; destruct QW as [Q|Q]; rewrite Q in E; [discriminate|injection E as <-; constructor]|].
    split; [reflexivity|]. split; [reflexivity|]. intros k sh HI. rewrite QM, QQ, app_nil_r in HI. exists sh. repeat split; auto.
  - intros [lead tasks sink wire store marks queue] a s' (J1 & J2 & J3 & J4 & J5 & J6) P H. cbn in *. subst tasks sink lead.
    destruct a; try contradiction; cbn in H.
    + destruct n; discriminate.
    + destruct wire as [w|]; [|discriminate]. injection H as <-. unfold idle_inv; cbn [m_lead m_tasks m_sink m_wire m_store m_marks m_queue]. repeat split; auto.
      intros w' E. injection E as <-. apply Forall_app. split; [auto|]. repeat constructor.
    + destruct wire as [w|]; [|discriminate]. injection H as <-. unfold idle_inv; cbn [m_lead m_tasks m_sink m_wire m_store m_marks m_queue]. repeat split; auto; discriminate.
    + injection H as <-. unfold idle_inv; cbn [m_lead m_tasks m_sink m_wire m_store m_marks m_queue]. repeat split; auto; discriminate.
    + destruct wire as [w|]; [discriminate|]. injection H as <-. unfold idle_inv; cbn [m_lead m_tasks m_sink m_wire m_store m_marks m_queue]. repeat split; auto.
      intros w' E. injection E as <-. constructor.
    + destruct wire as [[|msg w]|]; try discriminate. injection H as <-. unfold idle_inv; cbn [m_lead m_tasks m_sink m_wire m_store m_marks m_queue].
      specialize (J3 _ eq_refl). inversion J3 as [|x y E F]; subst. cbn [merge_all]. rewrite app_nil_r. repeat split; auto.
      intros w' E. injection E as <-. exact F.
    + destruct (look k store) as [sh|] eqn:E; [|discriminate]. apply look_in in E. injection H as <-. unfold idle_inv; cbn [m_lead m_tasks m_sink m_wire m_store m_marks m_queue]. repeat split; auto.
      intros k' sh' HI. rewrite !in_app_iff in HI. destruct HI as [HI|[[HI|[HI|[]]]|HI]].
      1,2,4: apply J6; rewrite !in_app_iff; auto.
      injection HI as <- <-. destruct (J6 k sh) as (sh0 & A & B); [rewrite !in_app_iff; auto|]. exists sh0. split; [exact A|exact B].
    + destruct marks as [|x t]; [discriminate|]. injection H as <-. unfold idle_inv; cbn [m_lead m_tasks m_sink m_wire m_store m_marks m_queue]. repeat split; auto.
      intros k sh HI. apply J6. rewrite !in_app_iff in *. cbn [In] in *. tauto.
    + destruct queue as [|[k sh] t]; [discriminate|]. injection H as <-. unfold idle_inv; cbn [m_lead m_tasks m_sink m_wire m_store m_marks m_queue]. rewrite set_in_keys. repeat split; auto.
      intros k' sh' HI. rewrite !in_app_iff in HI. destruct HI as [HI|[HI|HI]].
      * apply in_set_in in HI as [[-> ->]|[_ HI]]; apply J6; rewrite !in_app_iff; cbn [In]; auto.
      * apply J6; rewrite !in_app_iff; auto.
      * apply J6; rewrite !in_app_iff; cbn [In]; auto.
    + injection H as <-. unfold idle_inv; cbn [m_lead m_tasks m_sink m_wire m_store m_marks m_queue]. repeat split; auto; [discriminate|].
      intros k sh HI. apply J6. rewrite app_nil_r in HI. apply in_or_app. left. exact HI.
Qed.
Lemma not_repeated : forall s s', quiet s -> mruns (fun _ a => passive a) s s' ->
  m_lead s' = m_lead s /\ keys (m_store s') = keys (m_store s) /\
  forall k sh', In (k, sh') (m_store s') -> exists sh, In (k, sh) (m_store s) /\
    st_leader (sh_part sh') = st_leader (sh_part sh) /\ st_replicas (sh_part sh') = st_replicas (sh_part sh) /\ sh_size sh' = sh_size sh.
Proof.
  intros s s' Q R. destruct (quiet_stays _ _ Q R) as (_ & _ & _ & J4 & J5 & J6). split; [exact J4|]. split; [exact J5|].
  intros k sh' HI. destruct (J6 k sh') as (sh & A & B); [apply in_or_app; left; exact HI|]. exists sh. split; [exact A|exact B].
Qed.
Lemma stale_stays : forall s k s', NoDup (keys (m_store s)) -> quiet s -> stale s k -> mruns (fun _ a => passive a) s s' -> stale s' k.
Proof.
  intros s k s' ND Q (i & sh & H1 & H2 & H3) R. destruct (not_repeated _ _ Q R) as (E1 & E2 & G).
  assert (HK : In k (keys (m_store s'))) by (rewrite E2; eapply in_keys, H2). apply keys_in in HK as (sh' & HS).
  destruct (G _ _ HS) as (sh0 & A & B & _ & _). exists i, sh'. split; [rewrite E1; exact H1|]. split; [exact HS|].
  rewrite B. rewrite (key_once _ _ _ _ _ ND A H2). exact H3.
Qed.

(** ** The base offset *)

Lemma base_zero : forall s k sh, mruns (fun _ _ => True) nothing s -> In (k, sh) (m_store s) -> sh_base sh = 0.
Proof.
  assert (J : forall s, mruns (fun _ _ => True) nothing s -> forall k sh, In (k, sh) (m_store s ++ m_marks s ++ m_queue s) -> sh_base sh = 0).
  { apply (mruns_inv _ (fun s => forall k sh, In (k, sh) (m_store s ++ m_marks s ++ m_queue s) -> sh_base sh = 0)); [contradiction|].
    intros [lead tasks sink wire store marks queue] a s' J _ H k0 sh0. cbn in J.
    assert (JS : forall k sh, In (k, sh) store -> sh_base sh = 0) by (intros k sh HI; eapply J; rewrite !in_app_iff; eauto).
    assert (JM : forall k sh, In (k, sh) marks -> sh_base sh = 0) by (intros k sh HI; eapply J; rewrite !in_app_iff; eauto).
    assert (JQ : forall k sh, In (k, sh) queue -> sh_base sh = 0) by (intros k sh HI; eapply J; rewrite !in_app_iff; eauto).
    destruct a; cbn in H.
    - destruct (look k store); [discriminate|]. injection H as <-. cbn. rewrite !in_app_iff. cbn [In].
      intros [[H|[H|[]]]|[H|H]]; eauto. injection H as <- <-. reflexivity.
    - injection H as <-. cbn. rewrite !in_app_iff, in_filter_key. intros [[H _]|[H|H]]; eauto.
    - destruct (look k lead); [discriminate|]. injection H as <-. exact (J k0 sh0).
    - injection H as <-. exact (J k0 sh0).
    - destruct (look k lead); [|discriminate]. injection H as <-. exact (J k0 sh0).
    - destruct (look k lead); [|discriminate]. injection H as <-. exact (J k0 sh0).
    - destruct (nth_error tasks n) as [[k t]|]; [|discriminate].
      destruct t; try (destruct (look k lead)); injection H as <-; exact (J k0 sh0).
    - destruct wire; [|discriminate]. injection H as <-. exact (J k0 sh0).
    - destruct wire; [|discriminate]. injection H as <-. exact (J k0 sh0).
    - injection H as <-. exact (J k0 sh0).
    - destruct wire; [discriminate|]. injection H as <-. exact (J k0 sh0).
    - destruct wire as [[|msg w]|]; try discriminate. injection H as <-. cbn. rewrite !in_app_iff.
      intros [H|[H|[H|H]]]; eauto. destruct (merge_all store msg) as [l|] eqn:E; [|destruct H].
      destruct (merge_all_in _ _ _ _ _ E H) as (sh & r & A & _ & ->). cbn. eauto.
    - destruct (look k store) as [sh|] eqn:E; [|discriminate]. apply look_in in E. injection H as <-. cbn. rewrite !in_app_iff. cbn [In].
      intros [H|[[H|[H|[]]]|H]]; eauto. injection H as <- <-. cbn. eauto.
    - destruct marks as [|[k sh] t]; [discriminate|]. injection H as <-. cbn [m_store m_marks m_queue]. rewrite !in_app_iff. cbn [In].
      intros [H|[H|[H|[H|[]]]]]; eauto; eapply JM; [right|left]; eassumption.
    - destruct queue as [|[k sh] t]; [discriminate|]. injection H as <-. cbn [m_store m_marks m_queue]. rewrite !in_app_iff.
      intros [H|[H|H]]; eauto; [|eapply JQ; right; exact H]. apply in_set_in in H as [[-> ->]|[_ H]]; eauto. eapply JQ. left. reflexivity.
    - injection H as <-. exact (J k0 sh0).
    - injection H as <-. cbn. rewrite app_nil_r. intros H. eauto. }
  intros s k sh R HI. eapply J; [exact R|]. apply in_or_app. left. exact HI.
Qed.

(** ** Checking runs *)

Definition memb (k : Z) (l : list Z) : bool := existsb (Z.eqb k) l.
Lemma memb_no : forall k l, memb k l = false -> ~ In k l.
Proof.
  intros k l H HI. apply Bool.not_true_iff_false in H. apply H. apply existsb_exists. exists k. split; [exact HI|apply Z.eqb_refl].
Qed.
Lemma memb_yes : forall k l, memb k l = true -> In k l.
Proof. intros k l H. apply existsb_exists in H as (x & HI & E). apply Z.eqb_eq in E. subst. exact HI. Qed.
Fixpoint nodupb (l : list Z) : bool := match l with [] => true | x :: t => negb (memb x t) && nodupb t end.
Lemma nodupb_ok : forall l, nodupb l = true -> NoDup l.
Proof.
  induction l as [|x l IH]; cbn; intros H; [constructor|]. apply andb_true_iff in H as [H1 H2]. apply negb_true_iff in H1.
  constructor; [apply memb_no, H1|auto].
Qed.
Definition sound_b (i : lead_info) : bool :=
  (0 <=? li_me i) && (0 <=? li_hw i) && (0 <=? li_leo i) && nodupb (map r_spu (li_followers i)) &&
  forallb (fun f => (0 <=? r_spu f) && negb (r_spu f =? li_me i)) (li_followers i).
Lemma sound_b_ok : forall i, sound_b i = true -> sound i.
Proof.
  intros i H. unfold sound_b in H. repeat (apply andb_true_iff in H; destruct H as [H ?]).
  split; [apply Z.leb_le; assumption|]. split; [apply Z.leb_le; assumption|]. split; [apply Z.leb_le; assumption|].
  split; [apply nodupb_ok; assumption|]. apply Forall_forall. intros f HF.
  match goal with H : forallb _ _ = true |- _ => rewrite forallb_forall in H; specialize (H _ HF); apply andb_true_iff in H as [G1 G2] end.
  split; [apply Z.leb_le, G1|apply Z.eqb_neq, negb_true_iff, G2].
Qed.
Definition noneb {A} (l : list A) : bool := match l with [] => true | _ => false end.
Lemma noneb_ok : forall A (l : list A), noneb l = true -> l = [].
Proof. intros A [|x l] H; [reflexivity|discriminate]. Qed.
Definition careful_b (s : reps) (a : rep_act) : bool :=
  match a with
  | MDrop k => negb (memb k (keys (m_lead s))) && negb (memb k (keys (m_tasks s))) && negb (memb k (keys (m_sink s))) &&
               negb (memb k (keys (flying s)))
  | MLead k i => sound_b i && memb k (keys (m_store s)) && negb (memb k (keys (m_tasks s)))
  | MStop k => negb (memb k (keys (m_tasks s)))
  | MChange k i => sound_b i && negb (memb k (keys (m_tasks s)))
  | MClean _ _ _ => false
  | MLost => noneb (m_sink s) && noneb (flying s)
  | MBreak => noneb (flying s)
  | MReceive => forallb (fun k => match m_wire s with Some (msg :: _) => negb (memb k (keys msg)) | _ => true end) (keys (m_marks s))
  | MMark k _ => negb (memb k (keys (m_queue s)))
  | MScRestart => noneb (flying s) && noneb (m_marks s) && noneb (m_queue s)
  | _ => true
  end.
Lemma careful_b_ok : forall s a, careful_b s a = true -> careful s a.
Proof.
  intros s a H. destruct a; cbn [careful_b careful] in *; try exact I; try discriminate;
    repeat match goal with
           | H : _ && _ = true |- _ => apply andb_true_iff in H; destruct H
           | H : negb _ = true |- _ => apply negb_true_iff in H
           end;
    repeat match goal with |- _ /\ _ => split end;
    try (apply memb_no; assumption); try (apply memb_yes; assumption); try (apply sound_b_ok; assumption); try (apply noneb_ok; assumption).
  intros k HK. rewrite forallb_forall in H. specialize (H _ HK). destruct (m_wire s) as [[|msg w]|]; auto.
  apply negb_true_iff in H. apply memb_no, H.
Qed.
Fixpoint checked (okb : reps -> rep_act -> bool) (s : reps) (l : list rep_act) : option reps :=
  match l with
  | [] => Some s
  | a :: t => if okb s a then match mstep s a with Some s' => checked okb s' t | None => None end else None
  end.
Lemma checked_runs : forall (ok : reps -> rep_act -> Prop) okb, (forall s a, okb s a = true -> ok s a) ->
  forall l s s', checked okb s l = Some s' -> mruns ok s s'.
Proof.
  intros ok okb OK l. induction l as [|a l IH]; intros s s' H; cbn in H.
  - injection H as <-. apply mruns_start.
  - destruct (okb s a) eqn:EO; [|discriminate]. destruct (mstep s a) as [s1|] eqn:ES; [|discriminate].
    eapply mruns_trans; [|apply IH, H]. eapply mruns_one; [apply OK, EO|exact ES].
Qed.
Definition quiet_b (s : reps) : bool :=
  noneb (m_tasks s) && noneb (m_sink s) && match m_wire s with Some (_ :: _) => false | _ => true end && noneb (m_marks s) && noneb (m_queue s).
Lemma quiet_b_ok : forall s, quiet_b s = true -> quiet s.
Proof.
  intros s H. unfold quiet_b in H. repeat (apply andb_true_iff in H; destruct H as [H ?]).
  split; [apply noneb_ok; assumption|]. split; [apply noneb_ok; assumption|]. split; [|split; apply noneb_ok; assumption].
  destruct (m_wire s) as [[|m w]|]; auto. discriminate.
Qed.
Definition stale_b (s : reps) (k : Z) : bool :=
  match look k (m_lead s), look k (m_store s) with
  | Some i, Some sh => negb (r_leo (st_leader (sh_part sh)) =? li_leo i)
  | _, _ => false
  end.
Lemma stale_b_ok : forall s k, stale_b s k = true -> stale s k.
Proof.
  intros s k H. unfold stale_b in H. destruct (look k (m_lead s)) as [i|] eqn:E1; [|discriminate].
  destruct (look k (m_store s)) as [sh|] eqn:E2; [|discriminate]. exists i, sh. split; [apply look_in, E1|].
  split; [apply look_in, E2|]. apply Z.eqb_neq, negb_true_iff, H.
Qed.

(** ** Examples *)

Definition ex_info (hw leo f size : Z) : lead_info :=
  {| li_me := 1; li_hw := hw; li_leo := leo; li_followers := [{| r_spu := 2; r_hw := hw; r_leo := f |}; {| r_spu := 3; r_hw := -1; r_leo := -1 |}];
     li_size := size; li_base := 5 |}.
Definition made : list rep_act := [MTask 0; MTask 0; MTask 0; MTask 0].
Definition handed : list rep_act := [MTick; MReceive; MApply].
Definition ex_begin : list rep_act := [MNew 0; MLead 0 (ex_info 10 10 10 100); MConnect] ++ made ++ handed.
Definition reached (l : list rep_act) : reps := match mexec nothing l with Some s => s | None => nothing end.

Definition ex_fine : list rep_act := ex_begin ++
  [MChange 0 (ex_info 10 12 10 120)] ++ made ++ [MTick] ++ [MChange 0 (ex_info 10 13 11 130)] ++ made ++
  [MReceive; MBreak; MConnect; MApply; MMark 0 PLeaderOffline; MSendMark; MApply] ++ handed.
Lemma fine_run : mruns careful nothing (reached ex_fine) /\ quiet (reached ex_fine) /\
  m_lead (reached ex_fine) = [(0, ex_info 10 13 11 130)] /\
  map (fun e => (fst e, st_leader (sh_part (snd e)), st_res (sh_part (snd e)))) (m_store (reached ex_fine)) =
    [(0, {| r_spu := 1; r_hw := 10; r_leo := 13 |}, POnline)].
Proof.
  split; [|split; [apply quiet_b_ok; vm_compute; reflexivity|split; vm_compute; reflexivity]].
  apply (checked_runs _ careful_b careful_b_ok) with (l := ex_fine). vm_compute. reflexivity.
Qed.

Lemma stuck : forall (ok : reps -> rep_act -> Prop) okb l k,
  (forall s a, okb s a = true -> ok s a) -> checked okb nothing l = Some (reached l) ->
  nodupb (keys (m_store (reached l))) = true -> quiet_b (reached l) = true -> stale_b (reached l) k = true ->
  exists s k, mruns ok nothing s /\ quiet s /\ stale s k /\ forall s', mruns (fun _ a => passive a) s s' -> stale s' k.
Proof.
  intros ok okb l k OK R ND Q S. exists (reached l), k. apply quiet_b_ok in Q. apply stale_b_ok in S.
  split; [eapply checked_runs; eassumption|]. split; [exact Q|]. split; [exact S|]. intros s' R'.
  eapply stale_stays; [apply nodupb_ok, ND|exact Q|exact S|exact R'].
Qed.

Lemma lost_report : exists s k, mruns lost_ok nothing s /\ quiet s /\ stale s k /\
  forall s', mruns (fun _ a => passive a) s s' -> stale s' k.
Proof.
  apply (stuck _ (fun s a => careful_b s a || match a with MBreak => true | _ => false end)
    (ex_begin ++ [MChange 0 (ex_info 10 12 10 120)] ++ made ++ [MTick; MBreak; MConnect]) 0); try (vm_compute; reflexivity).
  intros s a H. apply orb_true_iff in H as [H|H]; [left; apply careful_b_ok, H|right]. destruct a; try discriminate. reflexivity.
Qed.
Lemma unsent_report : exists s k, mruns unsent_ok nothing s /\ quiet s /\ stale s k /\
  forall s', mruns (fun _ a => passive a) s s' -> stale s' k.
Proof.
  apply (stuck _ (fun s a => careful_b s a || match a with MLost => true | _ => false end)
    (ex_begin ++ [MChange 0 (ex_info 10 12 10 120)] ++ made ++ [MLost; MConnect]) 0); try (vm_compute; reflexivity).
  intros s a H. apply orb_true_iff in H as [H|H]; [left; apply careful_b_ok, H|right]. destruct a; try discriminate. reflexivity.
Qed.
Lemma unknown_report : exists s k, mruns unknown_ok nothing s /\ quiet s /\ stale s k /\
  forall s', mruns (fun _ a => passive a) s s' -> stale s' k.
Proof.
  apply (stuck _ (fun s a => careful_b s a || match a with MDrop _ => true | _ => false end)
    (ex_begin ++ [MNew 1; MLead 1 (ex_info 0 0 0 0)] ++ made ++ handed ++ [MDrop 1; MChange 1 (ex_info 0 1 0 9)] ++ made ++
     [MChange 0 (ex_info 10 12 10 120)] ++ made ++ [MTick; MReceive]) 0); try (vm_compute; reflexivity).
  intros s a H. apply orb_true_iff in H as [H|H]; [left; apply careful_b_ok, H|right]. destruct a; try discriminate. eauto.
Qed.
Lemma overlapping_reports : exists s k, mruns overlap_ok nothing s /\ quiet s /\ stale s k /\
  forall s', mruns (fun _ a => passive a) s s' -> stale s' k.
Proof.
  apply (stuck _ (fun s a => careful_b s a || match a with MChange _ i => sound_b i | _ => false end)
    (ex_begin ++ [MChange 0 (ex_info 10 12 10 120); MTask 0; MChange 0 (ex_info 10 13 10 130); MTask 1; MTask 1; MTask 1; MTask 1;
     MTask 0; MTask 0; MTask 0] ++ handed) 0); try (vm_compute; reflexivity).
  intros s a H. apply orb_true_iff in H as [H|H]; [left; apply careful_b_ok, H|right]. destruct a; try discriminate.
  exists k, i. split; [reflexivity|apply sound_b_ok, H].
Qed.
Lemma marked_over : exists s k, mruns mark_ok nothing s /\ quiet s /\ stale s k /\
  forall s', mruns (fun _ a => passive a) s s' -> stale s' k.
Proof.
  apply (stuck _ (fun s a => careful_b s a || match a with MMark _ _ => true | _ => false end)
    (ex_begin ++ [MChange 0 (ex_info 10 12 10 120)] ++ made ++ [MTick; MReceive; MMark 0 PLeaderOffline; MSendMark; MApply; MApply]) 0);
    try (vm_compute; reflexivity).
  intros s a H. apply orb_true_iff in H as [H|H]; [left; apply careful_b_ok, H|right]. destruct a; try discriminate. eauto.
Qed.
Definition ex_clean : list rep_act := ex_begin ++ [MClean 0 40 8].
Lemma clean_run : exists s k i sh, mruns clean_ok nothing s /\ quiet s /\ In (k, i) (m_lead s) /\ In (k, sh) (m_store s) /\ sh_size sh <> li_size i.
Proof.
  eexists (reached ex_clean), 0, _, _. split; [|split; [apply quiet_b_ok; vm_compute; reflexivity|]].
  - apply (checked_runs _ (fun s a => careful_b s a || match a with MClean _ _ _ => true | _ => false end)) with (l := ex_clean).
    + intros s a H. apply orb_true_iff in H as [H|H]; [left; apply careful_b_ok, H|right]. destruct a; try discriminate. eauto.
    + vm_compute. reflexivity.
  - split; [vm_compute; left; reflexivity|]. split; [vm_compute; left; reflexivity|]. vm_compute. discriminate.
Qed.
Lemma base_wrong : exists s k i, mruns careful nothing s /\ quiet s /\ In (k, i) (m_lead s) /\ li_base i = 5 /\
  forall s' sh, mruns (fun _ _ => True) nothing s' -> In (k, sh) (m_store s') -> sh_base sh = 0.
Proof.
  eexists (reached ex_fine), 0, _. destruct fine_run as (R & Q & E & _). split; [exact R|]. split; [exact Q|].
  rewrite E. split; [left; reflexivity|]. split; [reflexivity|]. intros s' sh R' HI. eapply base_zero; eassumption.
Qed.
