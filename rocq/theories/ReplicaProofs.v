(** Invariants of a replica and what reads return. *)
From Verif Require Import ListFacts WireProofs RecordModel RecordSpec RecordProofs StorageModel StorageSpec StorageProofs.

(** * The replica invariant *)
Fixpoint segs_inv (c : config) (s : Z) (prev : list rseg) (ls : list (list (batch bytes))) (e : Z) : Prop :=
  match prev, ls with
  | [], [] => s = e
  | g :: p, l :: t => g_base g = s /\ g_inv c g l /\ segs_inv c (g_end g) p t e
  | _, _ => False
  end.
Definition inv_at (c : config) (s : Z) (r : replica) (ls : list (list (batch bytes))) (act : list (batch bytes)) : Prop :=
  segs_inv c s (r_prev r) ls (m_base (r_active r)) /\ m_inv c (r_active r) act /\ 0 <= s.
Definition inv (c : config) (r : replica) (L : list (batch bytes)) : Prop :=
  exists s ls act, L = concat ls ++ act /\ inv_at c s r ls act.

Lemma g_inv_lt c g l : g_inv c g l -> 0 <= g_base g < g_end g.
Proof. intros ((_ & CH & _ & _ & _ & _ & B & _) & NE). pose proof (chain_lt _ _ _ CH NE). lia. Qed.
Lemma segs_le c : forall prev s ls e, segs_inv c s prev ls e -> s <= e.
Proof.
  induction prev as [|g p IH]; intros s [|l ls] e H; cbn [segs_inv] in H; try contradiction; [lia|].
  destruct H as (E & G & H). apply IH in H. pose proof (g_inv_lt _ _ _ G). lia.
Qed.
Lemma segs_in c : forall prev s ls e g, segs_inv c s prev ls e -> In g prev -> s <= g_base g /\ g_base g < g_end g <= e /\ 0 <= g_base g.
Proof.
  induction prev as [|h p IH]; intros s [|l ls] e g H I; cbn [segs_inv] in H; try contradiction.
  destruct H as (E & G & H). pose proof (g_inv_lt _ _ _ G) as L. destruct I as [<-|I].
  - pose proof (segs_le _ _ _ _ _ H). lia.
  - destruct (IH _ _ _ _ H I). lia.
Qed.
Lemma segs_app c : forall p1 s ls1 m p2 ls2 e, segs_inv c s p1 ls1 m -> segs_inv c m p2 ls2 e -> segs_inv c s (p1 ++ p2) (ls1 ++ ls2) e.
Proof.
  induction p1 as [|g p IH]; intros s [|l ls1] m p2 ls2 e H1 H2; cbn [segs_inv] in H1; try contradiction; cbn [app].
  - subst. assumption.
  - destruct H1 as (E & G & H1). cbn [segs_inv]. split; [assumption|]. split; [assumption|]. eapply IH; eassumption.
Qed.
Lemma segs_split c : forall p1 s p2 ls e, segs_inv c s (p1 ++ p2) ls e ->
  exists ls1 ls2 m, ls = ls1 ++ ls2 /\ segs_inv c s p1 ls1 m /\ segs_inv c m p2 ls2 e.
Proof.
  induction p1 as [|g p IH]; intros s p2 ls e H; cbn [app] in H.
  - exists [], ls, s. cbn [segs_inv]. auto.
  - destruct ls as [|l ls]; cbn [segs_inv] in H; [contradiction|]. destruct H as (E & G & H).
    destruct (IH _ _ _ _ H) as (ls1 & ls2 & m & -> & H1 & H2). exists (l :: ls1), ls2, m.
    split; [reflexivity|]. cbn [segs_inv]. auto.
Qed.
Lemma segs_chain c : forall prev s ls e, segs_inv c s prev ls e ->
  chain s (concat ls) e /\ flat_map g_log prev = encs (concat ls) /\ Forall raw_batch_ok (concat ls).
Proof.
  induction prev as [|g p IH]; intros s [|l ls] e H; cbn [segs_inv] in H; try contradiction.
  - cbn. auto.
  - destruct H as (E & ((EL & CH & OK & _) & _) & H). destruct (IH _ _ _ H) as (A & B & C).
    cbn [concat flat_map]. split; [subst s; eapply chain_app; eassumption|].
    split; [rewrite encs_app, EL, B; reflexivity|]. apply Forall_app. auto.
Qed.

Lemma fold_min_pos l : forall a, 0 <= a -> (forall g, In g l -> a <= g_base g) ->
  fold_left (fun a g => if (a <? 0) || (g_base g <? a) then g_base g else a) l a = a.
Proof.
  induction l as [|g l IH]; intros a Ha H; [reflexivity|]. cbn [fold_left].
  pose proof (H g (or_introl eq_refl)). replace (a <? 0) with false by lia. replace (g_base g <? a) with false by lia. cbn [orb].
  apply IH; [assumption|]. intros x Hx. apply H. right. assumption.
Qed.
Lemma seg_min_ok c prev s ls e : segs_inv c s prev ls e -> 0 <= s -> seg_min prev = match prev with [] => -1 | _ => s end.
Proof.
  destruct prev as [|g p]; [reflexivity|]. destruct ls as [|l ls]; [intros []|]. intros H Hs. pose proof H as H0. cbn [segs_inv] in H. destruct H as (E & G & H).
  unfold seg_min. cbn [fold_left]. change (-1 <? 0) with true. cbn [orb]. rewrite E. apply fold_min_pos; [assumption|].
  intros x Hx. destruct (segs_in _ _ _ _ _ x H0 (or_intror Hx)). assumption.
Qed.
Lemma fold_max_ok c : forall prev s ls e a, segs_inv c s prev ls e -> a <= s ->
  fold_left (fun a g => if a <? g_end g then g_end g else a) prev a = match prev with [] => a | _ => e end.
Proof.
  induction prev as [|g p IH]; intros s [|l ls] e a H Ha; cbn [segs_inv] in H; try contradiction; [reflexivity|].
  destruct H as (E & G & H). pose proof (g_inv_lt _ _ _ G). cbn [fold_left]. replace (a <? g_end g) with true by lia.
  rewrite (IH _ _ _ (g_end g) H ltac:(lia)). destruct p, ls; cbn [segs_inv] in H; try contradiction; auto.
Qed.
Lemma seg_max_ok c prev s ls e : segs_inv c s prev ls e -> 0 <= s -> seg_max prev = match prev with [] => 0 | _ => e end.
Proof. intros H Hs. unfold seg_max. eapply fold_max_ok; [eassumption|lia]. Qed.

Lemma log_start_ok c s r ls act : inv_at c s r ls act -> get_log_start r = s.
Proof.
  intros (H & M & S0). unfold get_log_start. rewrite (seg_min_ok _ _ _ _ _ H S0). destruct (r_prev r) as [|g p]; destruct ls; cbn [segs_inv] in H; try contradiction.
  - change (-1 <? 0) with true. auto.
  - replace (s <? 0) with false by lia. reflexivity.
Qed.
Lemma inv_stores c r L : inv c r L -> stores r L /\ Forall raw_batch_ok L.
Proof.
  intros (s & ls & act & -> & I). pose proof (log_start_ok _ _ _ _ _ I) as LS.
  destruct I as (H & ((EL & CH & OK & _) & _) & S0). destruct (segs_chain _ _ _ _ _ H) as (A & B & C).
  split; [|apply Forall_app; auto]. split.
  - unfold log_bytes. rewrite B, EL. symmetry. apply encs_app.
  - rewrite LS. eapply chain_app; eassumption.
Qed.

(** Which closed segment has an offset *)
Lemma segs_find c : forall prev s ls e o, segs_inv c s prev ls e -> s <= o < e ->
  exists p1 g p2, prev = p1 ++ g :: p2 /\ g_base g <= o < g_end g /\ (forall x, In x p1 -> g_base x <= o) /\ (forall x, In x p2 -> o < g_base x).
Proof.
  induction prev as [|g p IH]; intros s [|l ls] e o H Ho; cbn [segs_inv] in H; try contradiction; [lia|].
  destruct H as (E & G & H). destruct (Z.lt_ge_cases o (g_end g)).
  - exists [], g, p. split; [reflexivity|]. split; [lia|]. split; [intros x []|]. intros x Hx. destruct (segs_in _ _ _ _ _ x H Hx). lia.
  - destruct (IH _ _ _ o H ltac:(lia)) as (p1 & g' & p2 & -> & H1 & H2 & H3). exists (g :: p1), g', p2.
    split; [reflexivity|]. split; [assumption|]. split; [|assumption]. intros x [<-|Hx]; [pose proof (g_inv_lt _ _ _ G); lia|auto].
Qed.
Lemma filter_all {A} (f : A -> bool) l : (forall x, In x l -> f x = true) -> filter f l = l.
Proof. induction l as [|a l IH]; intros H; [reflexivity|]. cbn. rewrite (H a (or_introl eq_refl)). f_equal. apply IH. intros x Hx. apply H. right. assumption. Qed.
Lemma filter_none {A} (f : A -> bool) l : (forall x, In x l -> f x = false) -> filter f l = [].
Proof. induction l as [|a l IH]; intros H; [reflexivity|]. cbn. rewrite (H a (or_introl eq_refl)). apply IH. intros x Hx. apply H. right. assumption. Qed.

Lemma range_last_ok p1 g p2 lo o : lo <= g_base g <= o -> (forall x, In x p2 -> o < g_base x) ->
  range_last (p1 ++ g :: p2) lo o = Some g.
Proof.
  intros L H2. unfold range_last. rewrite filter_app. cbn [filter].
  replace ((lo <=? g_base g) && (g_base g <=? o)) with true by lia.
  rewrite (filter_none _ p2); [|intros x Hx; specialize (H2 x Hx); lia].
  rewrite rev_app_distr. reflexivity.
Qed.
Lemma find_segment_ok c prev s ls e o : segs_inv c s prev ls e -> 0 <= s -> s <= o < e ->
  exists p1 g p2, prev = p1 ++ g :: p2 /\ g_base g <= o < g_end g /\ find_segment prev o = Some g.
Proof.
  intros H S0 Ho. destruct (segs_find _ _ _ _ _ _ H Ho) as (p1 & g & p2 & E & HG & H1 & H2).
  exists p1, g, p2. split; [assumption|]. split; [assumption|].
  unfold find_segment. rewrite (seg_min_ok _ _ _ _ _ H S0), (seg_max_ok _ _ _ _ _ H S0).
  assert (exists x t, prev = x :: t) as (x & t & X) by (rewrite E; destruct p1; cbn; eauto).
  replace (match prev with [] => -1 | _ => s end) with s by (rewrite X; reflexivity).
  replace (match prev with [] => 0 | _ => e end) with e by (rewrite X; reflexivity).
  replace (o <? s) with false by lia.
  assert (s <= g_base g) as LO by (destruct (segs_in _ _ _ _ _ g H); [rewrite E; apply in_or_app; right; left; reflexivity|assumption]).
  destruct (o =? s) eqn:C.
  - rewrite E. apply range_last_ok; [lia|assumption].
  - replace (e <=? o) with false by lia. rewrite E. apply range_last_ok; [|assumption].
    lia.
Qed.
Lemma find_segment_low c prev s ls e o : segs_inv c s prev ls e -> 0 <= s -> o < s -> find_segment prev o = None.
Proof.
  intros H S0 Ho. unfold find_segment. rewrite (seg_min_ok _ _ _ _ _ H S0), (seg_max_ok _ _ _ _ _ H S0).
  destruct prev as [|g p].
  - destruct (o <? -1) eqn:C1; [reflexivity|]. destruct (o =? -1) eqn:C2; [reflexivity|]. replace (0 <=? o) with true by lia. reflexivity.
  - replace (o <? s) with true by lia. reflexivity.
Qed.

(** * Reading *)
(** [o] is in segment list [l] of one segment, [rest] starts at the next one. *)
Lemma locate c s r ls act o : inv_at c s r ls act -> s <= o < get_leo r ->
  exists before l after b e closed ipos,
    concat ls ++ act = before ++ l ++ after
    /\ chain s before b /\ chain b l e /\ chain e after (get_leo r) /\ b <= o < e
    /\ Forall raw_batch_ok l /\ e - b < 2 ^ 31 /\ zlen (encs l) <= c_seg_max c /\ ipos_ok b l ipos
    /\ (after = [] \/ In e (seg_bases r)) /\ In b (seg_bases r)
    /\ (closed = negb (m_base (r_active r) <=? o))
    /\ (closed = false -> after = [])
    /\ forall mx n, read_records r o mx n =
         match records_slice closed b e (encs l) ipos o mx with
         | Fail x => Fail x
         | Done None => Fail Other
         | Done (Some sl) => Done (mkSlice s (get_hw r) (get_leo r) (Some (take_slice l sl n)))
         end.
Proof.
  intros I Ho. pose proof (log_start_ok _ _ _ _ _ I) as LS. destruct I as (H & M & S0).
  destruct (segs_chain _ _ _ _ _ H) as (CA & _ & _).
  unfold read_records. rewrite LS.
  destruct (m_base (r_active r) <=? o) eqn:A.
  - pose proof (m_ipos_ok _ _ _ M) as IP.
    destruct M as ((EL & CH & OK & EN & SZ & SP & B0 & E63) & SL).
    exists (concat ls), act, [], (m_base (r_active r)), (m_end (r_active r)), false, (m_ipos (r_active r)).
    unfold get_leo in *.
    split; [rewrite app_nil_r; reflexivity|]. split; [assumption|]. split; [assumption|]. split; [reflexivity|]. split; [lia|].
    split; [assumption|]. split; [assumption|]. split; [rewrite <- EL; assumption|]. split; [assumption|].
    split; [left; reflexivity|]. split; [unfold seg_bases; apply in_or_app; right; left; reflexivity|].
    split; [reflexivity|]. split; [reflexivity|].
    intros mx n. replace (o =? m_end (r_active r)) with false by lia. replace (m_end (r_active r) <? o) with false by lia.
    unfold m_slice. rewrite EL. destruct (records_slice _ _ _ _ _ _ _) as [[sl|]|x]; reflexivity.
  - destruct (find_segment_ok _ _ _ _ _ o H S0 ltac:(lia)) as (p1 & g & p2 & E & HG & F).
    rewrite E in H. destruct (segs_split _ _ _ _ _ _ H) as (ls1 & ls2 & m & -> & H1 & H2).
    destruct ls2 as [|l ls2]; cbn [segs_inv] in H2; [contradiction|]. destruct H2 as (Eg & G & H2).
    pose proof (g_ipos_ok _ _ _ G) as IP.
    destruct G as ((EL & CH & OK & EN & SZ & SP & B0 & E63) & NE).
    destruct (segs_chain _ _ _ _ _ H1) as (C1 & _ & _). destruct (segs_chain _ _ _ _ _ H2) as (C2 & _ & _).
    exists (concat ls1), l, (concat ls2 ++ act), (g_base g), (g_end g), true, (g_ipos g).
    split; [rewrite concat_app; cbn [concat]; rewrite <- !app_assoc; reflexivity|].
    split; [rewrite Eg; assumption|]. split; [assumption|].
    destruct M as ((ELm & CHm & OKm & ENm & SZm & SPm & B0m & E63m) & SLm).
    split; [eapply chain_app; eassumption|]. split; [assumption|]. split; [assumption|]. split; [assumption|].
    split; [rewrite <- EL; assumption|]. split; [assumption|].
    split.
    { right. unfold seg_bases. rewrite E, map_app. destruct p2 as [|g2 p2].
      - destruct ls2; cbn [segs_inv] in H2; [|contradiction]. apply in_or_app. right. left. symmetry. assumption.
      - destruct ls2; cbn [segs_inv] in H2; [contradiction|]. destruct H2 as (Eg2 & _ & _).
        apply in_or_app. left. apply in_or_app. right. right. left. assumption. }
    split; [unfold seg_bases; rewrite E, map_app; apply in_or_app; left; apply in_or_app; right; left; reflexivity|].
    split; [reflexivity|]. split; [discriminate|].
    intros mx n. unfold find_slice. rewrite F. unfold g_slice. rewrite EL.
    destruct (records_slice _ _ _ _ _ _ _) as [[sl|]|x]; reflexivity.
Qed.

Lemma read_uncommitted_full c r L o n : config_ok c -> inv c r L -> get_log_start r <= o < get_leo r ->
  exists pre b post rest, L = pre ++ (b :: post) ++ rest /\ contains b o
    /\ read_partition_slice r o n ReadUncommitted
       = Done (mkSlice (get_log_start r) (get_hw r) (get_leo r) (Some (ztake n (flat_map renc (b :: post)))))
    /\ (rest = [] \/ exists q, In q (seg_bases r) /\ chain q rest (get_leo r))
    /\ zlen (encs (b :: post)) <= c_seg_max c /\ (m_base (r_active r) <= o -> rest = []).
Proof.
  intros CO (s & ls & act & -> & I) Ho. pose proof (log_start_ok _ _ _ _ _ I) as LS. rewrite LS in *.
  destruct (locate _ _ _ _ _ o I Ho) as (before & l & after & q & e & closed & ipos & E & C1 & C2 & C3 & Q & OK & SP & SZ & IP & AF & BB & CL & CN & RD).
  destruct (chain_find _ _ _ o C2 Q) as (a & b & c' & El & CT & CA).
  exists (before ++ a), b, c', after. rewrite E, El.
  split; [rewrite <- !app_assoc; reflexivity|]. split; [assumption|]. split.
  - unfold read_partition_slice. rewrite RD. 
    rewrite (slice_all closed q e l ipos o a b c' None OK C2) by (auto; change (2^31) with 2147483648 in *; change (2^32) with 4294967296; lia).
    rewrite El. rewrite slice_suffix. reflexivity.
  - split; [destruct AF as [->|AF]; [left; reflexivity|]; right; exists e; auto|].
    split.
    + rewrite El, encs_app, zlen_app in SZ. pose proof (zlen_nonneg (encs a)). lia.
    + intros A. apply CN. rewrite CL. apply Bool.negb_false_iff. lia.
Qed.
Lemma read_uncommitted c r L o n : config_ok c -> inv c r L -> get_log_start r <= o < get_leo r ->
  exists pre b post rest, L = pre ++ (b :: post) ++ rest /\ contains b o
    /\ read_partition_slice r o n ReadUncommitted
       = Done (mkSlice (get_log_start r) (get_hw r) (get_leo r) (Some (ztake n (flat_map renc (b :: post)))))
    /\ (rest = [] \/ exists q, In q (seg_bases r) /\ chain q rest (get_leo r)).
Proof.
  intros CO I Ho. destruct (read_uncommitted_full c r L o n CO I Ho) as (pre & b & post & rest & E & CT & RD & D & _).
  exists pre, b, post, rest. auto.
Qed.

Lemma read_committed_full c r L o n : config_ok c -> inv c r L -> get_log_start r <= o < get_leo r -> o <= get_hw r ->
  exists pre sel rest p q, L = pre ++ sel ++ rest
    /\ chain (get_log_start r) pre p /\ chain p sel q /\ chain q rest (get_leo r) /\ q <= get_hw r
    /\ (exists b t, sel ++ rest = b :: t /\ contains b o)
    /\ read_partition_slice r o n ReadCommitted
       = Done (mkSlice (get_log_start r) (get_hw r) (get_leo r) (Some (ztake n (flat_map renc sel))))
    /\ ((sel <> [] /\ (rest = [] \/ In q (seg_bases r))) \/ exists b t, rest = b :: t /\ contains b (get_hw r))
    /\ zlen (encs sel) <= c_seg_max c
    /\ (m_base (r_active r) <= o -> rest = [] \/ exists b t, rest = b :: t /\ contains b (get_hw r)).
Proof.
  intros CO (s & ls & act & -> & I) Ho Hw. pose proof (log_start_ok _ _ _ _ _ I) as LS. rewrite LS in *.
  destruct (locate _ _ _ _ _ o I Ho) as (before & l & after & q & e & closed & ipos & E & C1 & C2 & C3 & Q & OK & SP & SZ & IP & AF & BB & CL & CN & RD).
  destruct (chain_find _ _ _ o C2 Q) as (a & b & c' & El & CT & CA).
  assert (e - q < 2 ^ 32) as SP32 by (change (2^31) with 2147483648 in *; change (2^32) with 4294967296; lia).
  assert (zlen (encs l) < 2 ^ 32) as SZ32.
  { destruct CO as ((_ & C0) & _). change (2^31) with 2147483648 in *; change (2^32) with 4294967296; lia. }
  unfold read_partition_slice. rewrite RD. rewrite E.
  destruct (Z.lt_ge_cases (get_hw r) e) as [Hlt|Hge].
  - destruct (chain_find _ _ _ (get_hw r) C2 ltac:(lia)) as (a' & b' & d' & El' & CT' & CA').
    destruct (slice_limited closed q e l ipos o (get_hw r) a b c' a' b' d' OK C2 SP32 SZ32 IP El CA CT El' CA' CT' Hw) as (mid & Ea & Eb & RS).
    rewrite RS. rewrite Ea in CA'. apply chain_split in CA' as (x & X1 & X2).
    pose proof (chain_fun _ _ _ _ X1 CA) as ->.
    exists (before ++ a), mid, (b' :: d' ++ after), (b_base b), (b_base b').
    split; [rewrite El'; rewrite Ea; rewrite <- !app_assoc; reflexivity|].
    split; [eapply chain_app; eassumption|]. split; [assumption|].
    split.
    { rewrite El', Ea in C2. apply chain_split in C2 as (y & Y1 & Y2). apply chain_split in Y1 as (z & Z1 & Z2).
      pose proof (chain_fun _ _ _ _ Z1 CA) as ->. pose proof (chain_fun _ _ _ _ Z2 X2) as ->.
      change (chain (b_base b') ((b' :: d') ++ after) (get_leo r)). eapply chain_app; eassumption. }
    split; [unfold contains in CT'; lia|]. split.
    { exists b, (c' ++ after). split; [|assumption]. change (b' :: d' ++ after) with ((b' :: d') ++ after). rewrite app_assoc. rewrite <- Eb. reflexivity. }
    split.
    { rewrite El', Ea. rewrite <- app_assoc. rewrite slice_middle. reflexivity. }
    split; [right; exists b', (d' ++ after); auto|]. split.
    + rewrite El', Ea, !encs_app, !zlen_app in SZ. pose proof (zlen_nonneg (encs a)). pose proof (zlen_nonneg (encs (b' :: d'))). lia.
    + intros _. right. exists b', (d' ++ after). auto.
  - rewrite (slice_all closed q e l ipos o a b c' (Some (get_hw r)) OK C2) by (auto; lia).
    exists (before ++ a), (b :: c'), after, (b_base b), e.
    split; [rewrite El; rewrite <- !app_assoc; reflexivity|].
    split; [eapply chain_app; eassumption|].
    split. { rewrite El in C2. apply chain_split in C2 as (y & Y1 & Y2). pose proof (chain_fun _ _ _ _ Y1 CA) as ->. assumption. }
    split; [assumption|]. split; [lia|]. split; [exists b, (c' ++ after); auto|]. split.
    { rewrite El. rewrite slice_suffix. reflexivity. }
    split; [left; split; [discriminate|assumption]|]. split.
    + rewrite El, encs_app, zlen_app in SZ. pose proof (zlen_nonneg (encs a)). lia.
    + intros A. left. apply CN. rewrite CL. apply Bool.negb_false_iff. lia.
Qed.
Lemma read_committed c r L o n : config_ok c -> inv c r L -> get_log_start r <= o < get_leo r -> o <= get_hw r ->
  exists pre sel rest p q, L = pre ++ sel ++ rest
    /\ chain (get_log_start r) pre p /\ chain p sel q /\ chain q rest (get_leo r) /\ q <= get_hw r
    /\ (exists b t, sel ++ rest = b :: t /\ contains b o)
    /\ read_partition_slice r o n ReadCommitted
       = Done (mkSlice (get_log_start r) (get_hw r) (get_leo r) (Some (ztake n (flat_map renc sel))))
    /\ ((sel <> [] /\ (rest = [] \/ In q (seg_bases r))) \/ exists b t, rest = b :: t /\ contains b (get_hw r)).
Proof.
  intros CO I Ho Hw. destruct (read_committed_full c r L o n CO I Ho Hw) as (pre & sel & rest & p & q & E & C1 & C2 & C3 & Q & F & RD & D & _).
  exists pre, sel, rest, p, q. auto 10.
Qed.

Lemma read_below c r L o n iso : inv c r L -> o < get_log_start r ->
  read_partition_slice r o n iso = Fail (OffsetEvicted o (get_log_start r)).
Proof.
  intros (s & ls & act & -> & I) Ho. pose proof (log_start_ok _ _ _ _ _ I) as LS. destruct I as (H & M & S0). rewrite LS in Ho.
  pose proof (segs_le _ _ _ _ _ H). unfold read_partition_slice, read_records.
  replace (m_base (r_active r) <=? o) with false by lia. unfold find_slice.
  rewrite (find_segment_low _ _ _ _ _ o H S0 Ho). reflexivity.
Qed.
Lemma read_at_end c r L n iso : inv c r L ->
  read_partition_slice r (get_leo r) n iso = Done (mkSlice (get_log_start r) (get_hw r) (get_leo r) None).
Proof.
  intros (s & ls & act & -> & I). destruct I as (H & ((_ & CH & _) & _) & S0). apply chain_le in CH. unfold get_leo.
  unfold read_partition_slice, read_records, get_leo. replace (m_base (r_active r) <=? m_end (r_active r)) with true by lia.
  rewrite Z.eqb_refl. reflexivity.
Qed.
Lemma read_beyond c r L o n iso : inv c r L -> get_leo r < o -> read_partition_slice r o n iso = Fail Other.
Proof.
  intros (s & ls & act & -> & I) Ho. destruct I as (H & ((_ & CH & _) & _) & S0). apply chain_le in CH. unfold get_leo in *.
  unfold read_partition_slice, read_records, get_leo. replace (m_base (r_active r) <=? o) with true by lia.
  replace (o =? m_end (r_active r)) with false by lia. replace (m_end (r_active r) <? o) with true by lia. reflexivity.
Qed.

Lemma append_failure_kind c now m b m' e : append_batch c now m b = (m', Failed e) ->
  e = Panicked \/ (e = EmptyBatch /\ records_len b = 0) \/ e = InvalidBase.
Proof.
  unfold append_batch. destruct (records_len b =? 0) eqn:C; [intros H; inversion H; subst; right; left; split; [reflexivity|lia]|].
  cbv zeta. destruct (_ <? m_base m); [intros H; inversion H; auto|].
  destruct (c_seg_max c <? _); [intros H; inversion H|].
  match goal with |- (if ?x then _ else _) = _ -> _ => destruct x end; [|intros H; inversion H; auto].
  destruct (write_index _ _ _ _ _); intros H; inversion H; auto.
Qed.

Lemma append_batch_failure c now m b m' e l : config_ok c -> m_inv c m l -> raw_batch_ok b ->
  m_end m + records_len b - m_base m < 2 ^ 31 ->
  append_batch c now m b = (m', Failed e) ->
  m' = m /\ ((e = EmptyBatch /\ records_len b = 0) \/ (e = Panicked /\ has_schema (b_hdr b) = true)).
Proof.
  intros CO M OKb R AP. destruct (append_failure_kind c now m b m' e AP) as [->|[[-> Z0]| ->]].
  - destruct (append_not_full_panics _ _ _ _ _ _ CO M OKb R AP). auto.
  - split; [apply (append_failed _ _ _ _ _ _ AP); discriminate|]. left. auto.
  - exfalso. unfold append_batch in AP. destruct (records_len b =? 0); [inversion AP|].
    cbv zeta in AP. cbn [with_base b_base] in AP.
    destruct M as ((_ & CH & _) & _). apply chain_le in CH. replace (m_end m <? m_base m) with false in AP by lia.
    destruct (_ <? _) in AP; [inversion AP|]. destruct (_ =? _) in AP; [|inversion AP].
    destruct (write_index _ _ _ _ _); inversion AP.
Qed.

(** * Steps *)
Lemma add_segment_end c s prev ls e g : segs_inv c s prev ls e -> g_base g = e -> add_segment g prev = prev ++ [g].
Proof.
  intros H B. assert (forall x, In x prev -> g_base x < g_base g) as LT.
  { intros x Hx. destruct (segs_in _ _ _ _ _ x H Hx). lia. }
  clear H. induction prev as [|h t IH]; [reflexivity|]. cbn [add_segment app].
  pose proof (LT h (or_introl eq_refl)). replace (g_base g ?= g_base h) with Gt by (symmetry; apply Z.compare_gt_iff; lia).
  f_equal. apply IH. intros x Hx. apply LT. right. assumption.
Qed.
Lemma roll_inv c s r ls act now : config_ok c -> inv_at c s r ls act -> act <> [] ->
  inv_at c s (roll_over now r) (ls ++ [act]) [].
Proof.
  intros CO (H & M & S0) NE. pose proof (close_inv _ _ _ M NE) as G.
  assert (0 <= m_end (r_active r) < 2 ^ 63) as R.
  { destruct M as ((_ & CH & _ & _ & _ & _ & B & E) & _). apply chain_le in CH. lia. }
  split; [|split; [|assumption]].
  - unfold roll_over, roll_link, roll_count. cbn [r_prev r_active new_segment m_base].
    rewrite (add_segment_end _ _ _ _ _ (close_segment (r_active r)) H eq_refl).
    eapply segs_app; [eassumption|]. cbn [segs_inv]. split; [reflexivity|]. split; [assumption|reflexivity].
  - unfold roll_over, roll_link, roll_count. cbn [r_active]. apply new_inv; [destruct CO; lia|assumption].
Qed.

Lemma write_batch_at c now s r ls act b r' res : config_ok c -> inv_at c s r ls act -> raw_batch_ok b ->
  batch_size raw_codec b <= c_seg_max c -> room r [b] ->
  write_batch c now r b = (r', res) ->
  exists ls' act', inv_at c s r' ls' act' /\ m_base (r_active r) <= m_base (r_active r') /\ r_hw r' = r_hw r /\
  match res with
  | None => concat ls' ++ act' = (concat ls ++ act) ++ [with_base b (get_leo r)] /\ get_leo r' = get_leo r + records_len b
            /\ 0 < records_len b /\ r_short r' = false
  | Some e => concat ls' ++ act' = concat ls ++ act /\ get_leo r' = get_leo r
              /\ ((e = ShortCircuited /\ r_short r = true /\ r' = r)
                  \/ (r_short r = false /\ ((e = EmptyBatch /\ records_len b = 0 /\ r_short r' = true) \/ (e = Panicked /\ has_schema (b_hdr b) = true /\ r_short r' = false))))
  end.
Proof.
  intros CO I OKb SZ (R1 & R2) W. unfold write_batch in W. cbn [total] in R1, R2. rewrite Z.add_0_r in R1, R2.
  destruct (r_short r) eqn:SH.
  { inversion W; subst. exists ls, act. split; [assumption|]. split; [lia|]. split; [reflexivity|]. split; [reflexivity|]. split; [reflexivity|]. left. auto. }
  assert (forall r0 ls0 act0 m e, inv_at c s r0 ls0 act0 -> append_batch c now (r_active r0) b = (m, Failed e) ->
    get_leo r0 + records_len b - m_base (r_active r0) < 2 ^ 31 -> r_short r0 = false ->
    fail_append r0 m e = (match e with Panicked => r0 | _ => set_short r0 end, Some e) /\
    ((e = EmptyBatch /\ records_len b = 0) \/ (e = Panicked /\ has_schema (b_hdr b) = true))) as FA.
  { intros r0 ls0 act0 m e (H & M & _) AP RM SH0.
    assert (m = r_active r0 /\ ((e = EmptyBatch /\ records_len b = 0) \/ (e = Panicked /\ has_schema (b_hdr b) = true))) as (-> & D).
    { destruct (append_batch_failure c now (r_active r0) b m e act0 CO M OKb RM AP) as (A & B). auto. }
    split; [|assumption]. unfold fail_append, set_active. destruct r0; cbn in *. destruct e; reflexivity. }
  destruct (append_batch c now (r_active r) b) as [m []] eqn:AP.
  - inversion W; subst. destruct I as (H & M & S0).
    destruct (append_added _ _ _ _ _ _ CO M OKb R1 R2 AP) as (M' & E & B & P).
    exists ls, (act ++ [with_base b (get_leo r)]). unfold finish_append, get_leo in *. cbn [r_active r_hw].
    split; [|split; [lia|split; [reflexivity|]]].
    + split; [|split; [assumption|assumption]]. cbn [r_prev r_active]. rewrite B. assumption.
    + split; [apply app_assoc|]. auto.
  - destruct (append_full _ _ _ _ _ AP) as (-> & P).
    pose proof I as I0. destruct I as (H & M & S0).
    pose proof (full_nonempty _ _ _ _ _ _ M OKb SZ AP) as NE.
    pose proof (roll_inv _ _ _ _ _ now CO I0 NE) as I1.
    assert (m_end (r_active (roll_over now r)) = m_end (r_active r)) as E1 by reflexivity.
    assert (m_base (r_active (roll_over now r)) = m_end (r_active r)) as B1 by reflexivity.
    assert (m_base (r_active r) <= m_end (r_active r)) as LE by (destruct M as ((_ & CH & _) & _); apply chain_le in CH; assumption).
    assert (get_leo (roll_over now r) + records_len b - m_base (r_active (roll_over now r)) < 2 ^ 31) as R1'.
    { unfold get_leo in *. rewrite E1, B1. lia. }
    assert (concat (ls ++ [act]) = concat ls ++ act) as CC by (rewrite concat_app; cbn [concat]; rewrite app_nil_r; reflexivity).
    cbv zeta in W.
    destruct (append_batch c now (r_active (roll_over now r)) b) as [m1 []] eqn:AP1.
    + inversion W; subst. pose proof I1 as (H1 & M1 & S1).
      destruct (append_added _ _ _ _ _ _ CO M1 OKb R1' R2 AP1) as (M' & E & B & _).
      exists (ls ++ [act]), [with_base b (get_leo r)]. unfold finish_append, get_leo in *. cbn [r_active r_hw].
      split; [|split; [lia|split; [reflexivity|]]].
      * split; [|split; [assumption|assumption]]. cbn [r_prev r_active]. rewrite B. assumption.
      * rewrite CC. split; [reflexivity|]. rewrite E, E1. auto.
    + exfalso. destruct (append_full _ _ _ _ _ AP1) as (-> & _).
      destruct I1 as (_ & M1 & _). apply (full_nonempty _ _ _ _ _ _ M1 OKb SZ AP1). reflexivity.
    + destruct (FA _ _ _ _ _ I1 AP1 R1' SH) as (FE & D). rewrite FE in W. inversion W; subst.
      exists (ls ++ [act]), []. rewrite CC, app_nil_r.
      destruct D as [[-> D]|[-> D]].
      * lia.
      * split; [assumption|]. split; [unfold get_leo in *; lia|]. split; [reflexivity|]. split; [reflexivity|]. split; [reflexivity|].
        right. split; [reflexivity|]. right. auto.
  - destruct (FA _ _ _ _ _ I AP R1 SH) as (FE & D). rewrite FE in W. inversion W; subst.
    exists ls, act. split; [destruct e; assumption|]. split; [destruct e; cbn; lia|]. split; [destruct e; reflexivity|].
    split; [reflexivity|]. split; [destruct e; reflexivity|]. right. split; [reflexivity|].
    destruct D as [[-> D]|[-> D]]; [left|right]; auto.
Qed.

Lemma number_app s a b : number s (a ++ b) = number s a ++ number (s + total a) b.
Proof.
  revert s. induction a as [|x a IH]; intros s; cbn [app number total]; [rewrite Z.add_0_r; reflexivity|].
  rewrite IH. rewrite Z.add_assoc. reflexivity.
Qed.
Lemma total_nonneg l : 0 <= total l.
Proof. induction l as [|b l IH]; cbn [total]; [lia|]. pose proof (records_len_nonneg b). lia. Qed.
Lemma number_chain l : forall s, Forall (fun b => 0 < records_len b) l -> chain s (number s l) (s + total l).
Proof.
  induction l as [|b l IH]; intros s H; cbn [number total chain]; [lia|]. inversion H; subst.
  rewrite with_base_len. split; [reflexivity|]. split; [assumption|].
  replace (s + (records_len b + total l)) with (s + records_len b + total l) by lia. apply IH. assumption.
Qed.

Lemma write_batches_at c now s l : forall r ls act r' res, config_ok c -> inv_at c s r ls act -> Forall raw_batch_ok l ->
  check_limits c l = None -> room r l -> write_batches c now r l = (r', res) ->
  exists n ls' act', inv_at c s r' ls' act' /\ m_base (r_active r) <= m_base (r_active r') /\ r_hw r' = r_hw r
    /\ (n <= length l)%nat
    /\ concat ls' ++ act' = (concat ls ++ act) ++ number (get_leo r) (firstn n l)
    /\ get_leo r' = get_leo r + total (firstn n l)
    /\ Forall (fun b => 0 < records_len b) (firstn n l)
    /\ match res with
       | None => n = length l /\ (r_short r' = r_short r)
       | Some e => (n < length l)%nat /\
           ((e = ShortCircuited /\ r_short r = true /\ n = 0%nat /\ r' = r)
            \/ (r_short r = false /\ exists b, nth_error l n = Some b /\
                ((e = EmptyBatch /\ records_len b = 0 /\ r_short r' = true) \/ (e = Panicked /\ has_schema (b_hdr b) = true /\ r_short r' = false))))
       end.
Proof.
  induction l as [|b l IH]; intros r ls act r' res CO I OK CL R W; cbn [write_batches] in W.
  - inversion W; subst. exists 0%nat, ls, act. cbn [firstn number total length]. rewrite app_nil_r.
    split; [assumption|]. split; [lia|]. split; [reflexivity|]. split; [lia|]. split; [reflexivity|]. split; [lia|]. split; [constructor|]. auto.
  - inversion OK as [|? ? OKb OKl]; subst. cbn [check_limits] in CL. cbv zeta in CL.
    destruct (c_seg_max c <? batch_size raw_codec b) eqn:C1; [discriminate|]. destruct (c_req_max c <? batch_size raw_codec b); [discriminate|].
    pose proof (total_nonneg l) as TN. destruct R as (R1 & R2). cbn [total] in R1, R2.
    destruct (write_batch c now r b) as [r1 res1] eqn:WB.
    destruct (write_batch_at _ _ _ _ _ _ _ _ _ CO I OKb ltac:(lia) ltac:(split; cbn [total]; lia) WB) as (ls1 & act1 & I1 & MB & HW & D).
    destruct res1 as [e|].
    + inversion W; subst. exists 0%nat, ls1, act1. cbn [firstn number total length]. rewrite app_nil_r. destruct D as (D1 & D2 & D3).
      split; [assumption|]. split; [assumption|]. split; [assumption|]. split; [lia|]. split; [assumption|]. split; [lia|]. split; [constructor|].
      split; [lia|]. destruct D3 as [(-> & S & ->)|(S & D3)]; [left; auto|]. right. split; [assumption|]. exists b. split; [reflexivity|assumption].
    + destruct D as (D1 & D2 & D3 & D4).
      destruct (IH r1 ls1 act1 r' res CO I1 OKl CL ltac:(split; lia) W) as (n & ls' & act' & I' & MB' & HW' & N & F & LE & POS & D').
      exists (S n), ls', act'. cbn [firstn number total length].
      split; [assumption|]. split; [lia|]. split; [congruence|]. split; [lia|].
      split. { rewrite F, D1, D2. rewrite <- app_assoc. reflexivity. }
      split; [lia|]. split; [constructor; assumption|].
      destruct (r_short r) eqn:SR. { unfold write_batch in WB. rewrite SR in WB. inversion WB. }
      destruct res as [e|].
      * destruct D' as (D5 & D6). split; [lia|]. right. split; [reflexivity|].
        destruct D6 as [(_ & S & _)|(_ & b' & NB & D6)]; [congruence|]. exists b'. split; assumption.
      * destruct D' as (-> & S). split; [reflexivity|congruence].
Qed.

Lemma update_hw_at c s r ls act o : inv_at c s r ls act -> inv_at c s (update_hw r o) ls act.
Proof. intros H. exact H. Qed.

(** ** Retention *)
Lemma remove_prefix c s old young ls e : segs_inv c s (old ++ young) ls e ->
  remove_segments (old ++ young) (map g_base old) = young.
Proof.
  intros H. unfold remove_segments. rewrite filter_app.
  rewrite filter_none, filter_all; [reflexivity| |].
  - intros x Hx. apply negb_true_iff. apply Bool.not_true_is_false. intros E. apply existsb_exists in E as (y & Hy & E).
    apply in_map_iff in Hy as (z & <- & Hz). apply Z.eqb_eq in E.
    destruct (segs_split _ _ _ _ _ _ H) as (l1 & l2 & m & _ & H1 & H2).
    destruct (segs_in _ _ _ _ _ z H1 Hz). destruct (segs_in _ _ _ _ _ x H2 Hx). lia.
  - intros x Hx. apply negb_false_iff. apply existsb_exists. exists (g_base x). split; [apply in_map; assumption|apply Z.eqb_refl].
Qed.
Definition drops_to (c : config) (r : replica) (ls : list (list (batch bytes))) (act : list (batch bytes)) (s : Z) (r' : replica) : Prop :=
  exists s' ls1 ls2 old, ls = ls1 ++ ls2 /\ chain s (concat ls1) s' /\ s <= s' /\ inv_at c s' r' ls2 act /\ r_active r' = r_active r
    /\ r_hw r' = r_hw r /\ r_prev r = old ++ r_prev r' /\ length old = length ls1.
Lemma segs_length c : forall p s ls e, segs_inv c s p ls e -> length p = length ls.
Proof. induction p as [|g p IH]; intros s [|l ls] e H; cbn [segs_inv] in H; try contradiction; [reflexivity|]. cbn [length]. f_equal. destruct H as (_ & _ & H). eapply IH; eassumption. Qed.
Lemma drop_prefix c s r ls act old young sz r' : inv_at c s r ls act -> r_prev r = old ++ young ->
  r' = mkReplica young (r_active r) (r_hw r) sz (r_active_size r) (r_short r) ->
  drops_to c r ls act s r'.
Proof.
  intros (H & M & S0) E ->. rewrite E in H. destruct (segs_split _ _ _ _ _ _ H) as (l1 & l2 & m & -> & H1 & H2).
  pose proof (segs_le _ _ _ _ _ H1). destruct (segs_chain _ _ _ _ _ H1) as (CH & _ & _).
  exists m, l1, l2, old. split; [reflexivity|]. split; [assumption|]. split; [assumption|].
  split; [split; [assumption|]; split; [assumption|]; lia|]. split; [reflexivity|]. split; [reflexivity|].
  split; [assumption|]. eapply segs_length; eassumption.
Qed.
Lemma drop_none c s r ls act : inv_at c s r ls act -> drops_to c r ls act s r.
Proof.
  intros I. exists s, [], ls, []. split; [reflexivity|]. split; [reflexivity|]. split; [lia|]. split; [assumption|]. auto.
Qed.
Lemma enforce_size_at c s r ls act : inv_at c s r ls act -> drops_to c r ls act s (enforce_size c r).
Proof.
  intros I. unfold enforce_size. cbv zeta. destruct (0 <? _); [|apply drop_none; assumption].
  set (n := _ / _ + _). pose proof (ztake_zdrop n (r_prev r)) as E.
  eapply (drop_prefix c s r ls act (ztake n (r_prev r)) (zdrop n (r_prev r))); [assumption|symmetry; assumption|].
  unfold first_bases. destruct I as (H & _). rewrite <- E in H.
  pose proof (remove_prefix _ _ _ _ _ _ H) as RP. rewrite E in RP. rewrite RP. reflexivity.
Qed.
Lemma enforce_ttl_at c now s r ls act : inv_at c s r ls act -> in_age_order c now r -> drops_to c r ls act s (enforce_ttl c now r).
Proof.
  intros I (old & young & E & FO & FY). unfold enforce_ttl.
  rewrite Forall_forall in FO, FY.
  assert (filter (is_expired c now) (r_prev r) = old) as F.
  { rewrite E, filter_app. rewrite filter_all by assumption. rewrite filter_none by assumption. apply app_nil_r. }
  rewrite F. destruct old as [|g old]; [apply drop_none; assumption|].
  eapply (drop_prefix c s r ls act (g :: old) young); [assumption|assumption|].
  destruct I as (H & _). rewrite E in H. pose proof (remove_prefix _ _ _ _ _ _ H) as RP. rewrite E, RP. reflexivity.
Qed.

(** ** Restart *)
Fixpoint ascending (l : list dseg) : Prop :=
  match l with [] => True | d :: t => (forall x, In x t -> d_base d < d_base x) /\ ascending t end.
Lemma sort_ascending l : ascending l -> sort_segs l = l.
Proof.
  induction l as [|d t IH]; intros H; [reflexivity|]. destruct H as (H1 & H2). unfold sort_segs in *. cbn [fold_right]. rewrite (IH H2).
  destruct t as [|h t]; [reflexivity|]. cbn [sort_in]. pose proof (H1 h (or_introl eq_refl)). replace (d_base d <=? d_base h) with true by lia. reflexivity.
Qed.
Definition reopen (g : rseg) : rseg := mkRseg (g_base g) (g_end g) (g_log g) (closed_index (g_idx g)) (g_mtime g).
Lemma reopen_inv c g l : g_inv c g l -> g_inv c (reopen g) l.
Proof.
  intros ((EL & CH & OK & EN & SZ & SP & B0 & E63) & NE). split; [|assumption].
  unfold reopen, seg_inv. cbn [g_base g_end g_log g_idx].
  split; [assumption|]. split; [assumption|]. split; [assumption|]. split; [|lia].
  unfold closed_index. destruct (g_idx g); [|assumption].
  constructor; [|constructor]. exists [], l. split; [reflexivity|]. cbn [fst snd]. split; [reflexivity|]. cbn [chain]. lia.
Qed.
Lemma reopen_segs c : forall p s ls e, segs_inv c s p ls e -> segs_inv c s (map reopen p) ls e.
Proof.
  induction p as [|g p IH]; intros s [|l ls] e H; cbn [segs_inv] in H; try contradiction; cbn [map segs_inv]; [assumption|].
  destruct H as (E & G & H). split; [assumption|]. split; [apply reopen_inv; assumption|]. apply IH. assumption.
Qed.
Lemma open_unknown_ok c g l : g_inv c g l -> open_unknown (closed_files g) = Done (reopen g).
Proof.
  intros ((EL & CH & OK & EN & SZ & SP & B0 & E63) & NE). unfold open_unknown, closed_files. cbn [d_base d_log d_ifile d_mtime].
  pose proof (validate_log_ok (g_base g) l (g_end g) [] OK CH (or_introl eq_refl)) as V. rewrite app_nil_r, <- EL in V. rewrite V.
  rewrite (valid_leo_ok _ _ _ B0 CH). reflexivity.
Qed.
Lemma open_all_ok c : forall p s ls e a s0 la, segs_inv c s p ls e -> segs_inv c s0 a la s ->
  open_all (map closed_files p) a = Done (a ++ map reopen p).
Proof.
  induction p as [|g p IH]; intros s [|l ls] e a s0 la H A; cbn [segs_inv] in H; try contradiction; cbn [map open_all].
  - rewrite app_nil_r. reflexivity.
  - destruct H as (E & G & H). rewrite (open_unknown_ok _ _ _ G).
    rewrite (add_segment_end _ _ _ _ _ (reopen g) A E).
    rewrite (IH _ _ _ (a ++ [reopen g]) s0 (la ++ [l]) H).
    + rewrite <- app_assoc. reflexivity.
    + eapply segs_app; [eassumption|]. cbn [segs_inv]. split; [assumption|]. split; [apply reopen_inv; assumption|reflexivity].
Qed.
Lemma load_unfold c now s prev ls e d k : segs_inv c s prev ls e -> d_base d = e ->
  load c now (mkDisk (map closed_files prev ++ [d]) k) =
  match open_for_write c d with Fail x => Fail x | Done m => Done (assemble (map reopen prev) m k) end.
Proof.
  intros H B. unfold load. cbn [d_segs d_hw]. rewrite sort_ascending.
  - rewrite rev_app_distr. cbn [rev app]. rewrite rev_involutive.
    rewrite (open_all_ok _ _ _ _ _ [] s [] H) by reflexivity. reflexivity.
  - revert s ls H. induction prev as [|g p IH]; intros s ls H; cbn [map app ascending].
    + split; [intros x []|exact I].
    + destruct ls as [|l ls]; cbn [segs_inv] in H; [contradiction|]. destruct H as (E & G & H). pose proof (g_inv_lt _ _ _ G).
      split; [|eapply IH; eassumption]. intros x Hx. cbn [closed_files d_base]. apply in_app_or in Hx as [Hx|[<-|[]]].
      * apply in_map_iff in Hx as (y & <- & Hy). cbn [closed_files d_base]. destruct (segs_in _ _ _ _ _ y H Hy). lia.
      * pose proof (segs_le _ _ _ _ _ H). lia.
Qed.

Lemma first_empty_range l : forall i, i <= first_empty i l <= i + zlen l.
Proof.
  induction l as [|[o p] l IH]; intros i; cbn [first_empty]; [unfold zlen; cbn [length]; lia|]. rewrite zlen_cons.
  destruct (p =? 0); [pose proof (zlen_nonneg l); lia|]. specialize (IH (i + 1)). lia.
Qed.

(** Opening an active log that ends with part of a batch. *)
Lemma open_tail c base l e tail ifile mt : config_ok c -> 0 <= base -> e < 2 ^ 63 -> e - base < 2 ^ 31 ->
  Forall raw_batch_ok l -> chain base l e -> zlen (encs l) <= c_seg_max c ->
  (tail = [] \/ exists b k, raw_batch_ok b /\ 0 < k < zlen (renc b) /\ tail = ztake k (renc b)) ->
  open_for_write c (mkDseg base (encs l ++ tail) ifile mt) =
  if first_empty 0 ifile <? c_entries c then Done (mkMseg base e (encs l) ifile (first_empty 0 ifile) 0 0 mt) else Fail IndexFull.
Proof.
  intros CO B0 E63 SP OK CH SZ T. unfold open_for_write. cbn [d_base d_log d_ifile d_mtime]. cbv zeta.
  destruct (first_empty 0 ifile <? c_entries c); [|reflexivity].
  rewrite (validate_log_ok base l e tail OK CH T). rewrite (valid_leo_ok _ _ _ B0 CH).
  destruct tail as [|x t].
  - rewrite app_nil_r. reflexivity.
  - rewrite ztake_app_exact. reflexivity.
Qed.
Lemma open_tail_inv c base l e ifile mt : config_ok c -> 0 <= base -> e < 2 ^ 63 -> e - base < 2 ^ 31 ->
  Forall raw_batch_ok l -> chain base l e -> zlen (encs l) <= c_seg_max c ->
  Forall (entry_ok base l) ifile -> zlen ifile * c_interval c <= zlen (encs l) ->
  m_inv c (mkMseg base e (encs l) ifile (first_empty 0 ifile) 0 0 mt) l.
Proof.
  intros CO B0 E63 SP OK CH SZ EN RM. unfold m_inv, seg_inv, idx_room. cbn [m_base m_end m_log m_ifile m_slot m_last m_acc].
  pose proof (first_empty_range ifile 0) as FE. destruct CO as (_ & CI & _). 
  split; [|split; [lia|split; [lia|split; [lia|split; [lia|split; [nia|assumption]]]]]].
  split; [reflexivity|]. split; [assumption|]. split; [assumption|]. split; [assumption|]. auto.
Qed.

Lemma assemble_at c s prev ls m l k : segs_inv c s prev ls (m_base m) -> m_inv c m l -> 0 <= s -> inv_at c s (assemble prev m k) ls l.
Proof. intros H M S0. split; [exact H|]. split; assumption. Qed.

(** The disk left with [tail] after the batches [act ++ new] in the active log. *)
Lemma load_at c now s prev ls m act new e' tail mt k : config_ok c -> segs_inv c s prev ls (m_base m) -> m_inv c m act -> 0 <= s ->
  Forall raw_batch_ok new -> chain (m_end m) new e' -> e' - m_base m < 2 ^ 31 -> e' < 2 ^ 63 -> zlen (encs (act ++ new)) <= c_seg_max c ->
  (tail = [] \/ exists b k, raw_batch_ok b /\ 0 < k < zlen (renc b) /\ tail = ztake k (renc b)) ->
  exists r', inv_at c s r' ls (act ++ new) /\ get_leo r' = e' /\
  r' = assemble (map reopen prev) (mkMseg (m_base m) e' (encs (act ++ new)) (m_ifile m) (first_empty 0 (m_ifile m)) 0 0 mt) k /\
  load c now (mkDisk (map closed_files prev ++ [mkDseg (m_base m) (encs (act ++ new) ++ tail) (m_ifile m) mt]) k)
  = if first_empty 0 (m_ifile m) <? c_entries c then Done r' else Fail IndexFull.
Proof.
  intros CO H ((EL & CH & OK & EN & SZ & SP & B0 & E63) & SL & LA & L0 & (A0 & A1 & A2)) S0 OKn CHn SPn E63n SZn T.
  assert (Forall raw_batch_ok (act ++ new)) as OKa by (apply Forall_app; auto).
  assert (chain (m_base m) (act ++ new) e') as CHa by (eapply chain_app; eassumption).
  eexists. split; [|split; [|split; [reflexivity|]]].
  - apply assemble_at; [apply reopen_segs; exact H| |assumption].
    apply open_tail_inv; try assumption.
    + rewrite Forall_forall in *. intros x Hx. apply entry_ok_app. apply EN. assumption.
    + rewrite encs_app, zlen_app, <- EL. pose proof (zlen_nonneg (encs new)). lia.
  - reflexivity.
  - rewrite (load_unfold _ _ _ _ _ _ (mkDseg (m_base m) (encs (act ++ new) ++ tail) (m_ifile m) mt) _ H eq_refl).
    rewrite (open_tail c (m_base m) (act ++ new) e' tail (m_ifile m) mt CO B0 E63n SPn OKa CHa SZn T).
    destruct (first_empty 0 (m_ifile m) <? c_entries c); reflexivity.
Qed.

(** Dying while appending to a segment the batch fits in. *)
Lemma torn b n :
  raw_batch_ok b ->
  let tail := ztake n (if zlen (renc b) =? batch_size raw_codec b then renc b else []) in
  (tail = [] \/ exists b k, raw_batch_ok b /\ 0 < k < zlen (renc b) /\ tail = ztake k (renc b))
  \/ (tail = renc b /\ zlen (renc b) = batch_size raw_codec b).
Proof.
  intros OK. cbv zeta. destruct (zlen (renc b) =? batch_size raw_codec b) eqn:C; [|left; left; destruct n; reflexivity].
  destruct (Z.lt_ge_cases n (zlen (renc b))) as [H|H]; [|right; split; [apply ztake_all; lia|lia]].
  left. destruct (Z.lt_ge_cases 0 n) as [H1|H1]; [|left; apply ztake_neg; lia].
  right. exists b, n. auto.
Qed.
Lemma died_at c now s prev ls m act b n hw ps az sh k : config_ok c -> segs_inv c s prev ls (m_base m) -> m_inv c m act -> 0 <= s ->
  raw_batch_ok b -> 0 < records_len b -> m_end m + records_len b - m_base m < 2 ^ 31 -> m_end m + records_len b < 2 ^ 63 ->
  (zlen (renc (with_base b (m_end m))) = batch_size raw_codec b -> zlen (m_log m) + batch_size raw_codec b <= c_seg_max c) ->
  exists r' new, (new = [] \/ new = [with_base b (m_end m)]) /\
  inv_at c s r' ls (act ++ new) /\ get_leo r' = m_end m + total new /\ r_hw r' <= get_leo r' /\ r_short r' = false /\
  load c now (disk_of (mkReplica prev (died_in c now m b n) hw ps az sh) k)
  = if first_empty 0 (m_ifile m) <? c_entries c then Done r' else Fail IndexFull.
Proof.
  intros CO H M S0 OKb POS R1 R2 FIT. pose proof M as ((EL & CH & OK & EN & SZ & SP & B0 & E63) & _).
  pose proof (chain_le _ _ _ CH) as LE.
  assert (raw_batch_ok (with_base b (m_end m))) as OKB by (apply with_base_ok; [assumption|lia]).
  assert (forall prev mm kk, r_hw (assemble prev mm kk) <= get_leo (assemble prev mm kk)) as HW.
  { intros. unfold assemble, get_leo. cbn [r_hw r_active]. destruct (m_end mm <? _) eqn:C; lia. }
  unfold disk_of. cbn [r_prev r_active]. unfold active_files, died_in. cbn [m_base m_log m_ifile m_mtime]. cbv zeta.
  destruct (torn (with_base b (m_end m)) n OKB) as [T|[T TS]].
  - destruct (load_at c now s prev ls m act [] (m_end m) _ now k CO H M S0 (Forall_nil _) eq_refl SP E63 ltac:(rewrite app_nil_r, <- EL; assumption) T)
      as (r' & I & LEO & -> & LD).
    eexists. exists []. split; [left; reflexivity|]. split; [eassumption|]. split; [cbn [total]; rewrite LEO; lia|].
    split; [apply HW|]. split; [reflexivity|]. rewrite app_nil_r, <- EL in LD. rewrite app_nil_r, <- EL. exact LD.
  - cbv zeta in T. rewrite T.
    change (batch_size raw_codec (with_base b (m_end m))) with (batch_size raw_codec b) in TS. specialize (FIT TS).
    assert (encs (act ++ [with_base b (m_end m)]) = m_log m ++ renc (with_base b (m_end m))) as EE.
    { rewrite encs_app, EL. cbn [encs flat_map]. rewrite app_nil_r. reflexivity. }
    destruct (load_at c now s prev ls m act [with_base b (m_end m)] (m_end m + records_len b) [] now k CO H M S0) as (r' & I & LEO & -> & LD).
    + constructor; [assumption|constructor].
    + cbn [chain]. rewrite with_base_len. auto.
    + assumption.
    + assumption.
    + rewrite EE, zlen_app. lia.
    + left. reflexivity.
    + eexists. exists [with_base b (m_end m)]. split; [right; reflexivity|]. split; [eassumption|].
      split; [cbn [total]; rewrite with_base_len, LEO; lia|]. split; [apply HW|]. split; [reflexivity|].
      rewrite app_nil_r in LD. rewrite EE in *. exact LD.
Qed.

Lemma crash_at c now s r ls act b n k : config_ok c -> inv_at c s r ls act -> op_ok c r (Crash now b n k) ->
  exists r' new ls' act' m, (new = [] \/ (new = [with_base b (get_leo r)] /\ 0 < records_len b)) /\ inv_at c s r' ls' act'
    /\ concat ls' ++ act' = (concat ls ++ act) ++ new /\ get_leo r' = get_leo r + total new
    /\ r_hw r' <= get_leo r' /\ r_short r' = false
    /\ (exists l, m_inv c m l)
    /\ load c now (crash_disk c now r b n k) = if first_empty 0 (m_ifile m) <? c_entries c then Done r' else Fail IndexFull.
Proof.
  intros CO I (OKb & (R1 & R2) & CL). pose proof I as (H & M & S0). cbn [total] in R1, R2. rewrite Z.add_0_r in R1, R2.
  cbn [check_limits] in CL. cbv zeta in CL. destruct (c_seg_max c <? batch_size raw_codec b) eqn:C1; [discriminate|].
  unfold crash_disk. destruct (append_batch c now (r_active r) b) as [m' []] eqn:AP.
  - destruct (append_added _ _ _ _ _ _ CO M OKb R1 R2 AP) as (M' & E & B & P).
    destruct (died_at c now s (r_prev r) ls (r_active r) act b n (r_hw r) (r_prev_size r) (r_active_size r) (r_short r) k CO H M S0 OKb P R1 R2) as (r' & new & N & I' & LEO & HW & SH & LD).
    { intros SE. pose proof M' as ((EL' & _ & _ & _ & SZ' & _) & _). pose proof M as ((EL & _) & _).
      rewrite EL', encs_app, <- EL, zlen_app in SZ'. cbn [encs flat_map] in SZ'. rewrite app_nil_r in SZ'. lia. }
    exists r', new, ls, (act ++ new), (r_active r).
    split; [destruct N as [->| ->]; [left; reflexivity|right; auto]|].
    split; [assumption|]. split; [apply app_assoc|]. split; [assumption|]. split; [assumption|]. split; [assumption|]. split; [eauto|]. exact LD.
  - destruct (append_full _ _ _ _ _ AP) as (-> & P).
    pose proof (full_nonempty _ _ _ _ _ _ M OKb ltac:(lia) AP) as NE.
    pose proof (roll_inv _ _ _ _ _ now CO I NE) as (H1 & M1 & _).
    pose proof M as ((_ & CH & _) & _). apply chain_le in CH.
    destruct (died_at c now s (r_prev (roll_over now r)) (ls ++ [act]) (r_active (roll_over now r)) [] b n (r_hw r) (r_prev_size (roll_over now r)) (r_active_size r) (r_short r) k CO H1 M1 S0 OKb P) as (r' & new & N & I' & LEO & HW & SH & LD).
    { unfold roll_over, roll_link, roll_count, new_segment, get_leo in *. cbn [r_active m_end m_base]. lia. }
    { exact R2. }
    { intros _. unfold roll_over, roll_link, roll_count, new_segment. cbn [r_active m_log]. change (zlen (@nil Z)) with 0. lia. }
    exists r', new, (ls ++ [act]), ([] ++ new), (r_active (roll_over now r)).
    split; [destruct N as [->| ->]; [left; reflexivity|right; auto]|].
    split; [assumption|]. split; [rewrite concat_app; cbn [concat app]; rewrite app_nil_r; reflexivity|].
    split; [assumption|]. split; [assumption|]. split; [assumption|]. split; [eauto|]. exact LD.
  - destruct M as (M0 & M1). pose proof M0 as (EL & CH & OK & EN & SZ & SP & B0 & E63).
    destruct (load_at c now s (r_prev r) ls (r_active r) act [] (m_end (r_active r)) [] (m_mtime (r_active r)) k CO H (conj M0 M1) S0 (Forall_nil _) eq_refl SP E63 ltac:(rewrite app_nil_r, <- EL; assumption) (or_introl eq_refl))
      as (r' & I' & LEO & Er & LD).
    exists r', [], ls, (act ++ []), (r_active r). split; [left; reflexivity|]. split; [assumption|].
    split; [rewrite !app_nil_r; reflexivity|]. split; [cbn [total]; unfold get_leo in *; lia|].
    split. { rewrite Er. unfold assemble, get_leo. cbn [r_hw r_active m_end]. destruct (_ <? ckpt_value _ k) eqn:C; lia. }
    split; [rewrite Er; reflexivity|]. split; [exists act; split; assumption|].
    rewrite !app_nil_r, <- EL in LD. exact LD.
Qed.
Lemma restart_at c now s r ls act k : config_ok c -> inv_at c s r ls act ->
  exists r', inv_at c s r' ls act /\ get_leo r' = get_leo r /\ r_hw r' <= get_leo r' /\ r_short r' = false
    /\ r_hw r' = Z.min (get_leo r) (ckpt_value (m_base (r_active r)) k)
    /\ load c now (disk_of r k) = if first_empty 0 (m_ifile (r_active r)) <? c_entries c then Done r' else Fail IndexFull.
Proof.
  intros CO (H & (M0 & M1) & S0). pose proof M0 as (EL & CH & OK & EN & SZ & SP & B0 & E63).
  destruct (load_at c now s (r_prev r) ls (r_active r) act [] (m_end (r_active r)) [] (m_mtime (r_active r)) k CO H (conj M0 M1) S0 (Forall_nil _) eq_refl SP E63 ltac:(rewrite app_nil_r, <- EL; assumption) (or_introl eq_refl))
    as (r' & I' & LEO & Er & LD).
  rewrite app_nil_r in I'. exists r'. split; [assumption|]. split; [exact LEO|].
  assert (r_hw r' = Z.min (get_leo r) (ckpt_value (m_base (r_active r)) k)) as HW.
  { rewrite Er. unfold assemble, get_leo. cbn [r_hw r_active m_end m_base]. destruct (_ <? ckpt_value _ k) eqn:C; lia. }
  split; [unfold get_leo in *; lia|].
  split; [rewrite Er; reflexivity|]. split; [assumption|].
  rewrite !app_nil_r, <- EL in LD. exact LD.
Qed.

(** * One step *)
Definition added_by (a : op) (leo : Z) (new : list (batch bytes)) : Prop :=
  match a with
  | Write _ l _ => exists n, new = number leo (firstn n l)
  | Crash _ b _ _ => new = [] \/ new = [with_base b leo]
  | _ => new = []
  end.
Definition step_to (c : config) (a : op) (r r' : replica) (L L' : list (batch bytes)) : Prop :=
  exists dropped kept new, L = dropped ++ kept /\ L' = kept ++ new
    /\ chain (get_log_start r) dropped (get_log_start r') /\ chain (get_leo r) new (get_leo r')
    /\ added_by a (get_leo r) new
    /\ match a with CleanSize | CleanTtl _ => True | _ => dropped = [] end.
Lemma drops_step c a s r ls act r' : drops_to c r ls act s r' -> inv_at c s r ls act ->
  match a with CleanSize | CleanTtl _ => True | _ => False end ->
  exists L', inv c r' L' /\ step_to c a r r' (concat ls ++ act) L'.
Proof.
  intros (s' & l1 & l2 & old & -> & CH & LE & I' & A & HW & PR) I AA. exists (concat l2 ++ act).
  split; [exists s', l2, act; auto|]. exists (concat l1), (concat l2 ++ act), [].
  split; [rewrite concat_app, <- app_assoc; reflexivity|]. split; [rewrite app_nil_r; reflexivity|].
  split; [rewrite (log_start_ok _ _ _ _ _ I), (log_start_ok _ _ _ _ _ I'); assumption|].
  split; [unfold get_leo; rewrite A; reflexivity|].
  destruct a; try contradiction; cbn; auto.
Qed.

Lemma firstn_nil_any {A} n : firstn n (@nil A) = [].
Proof. destruct n; reflexivity. Qed.

Lemma step c r L a r' : config_ok c -> inv c r L -> op_ok c r a -> exec c r a = Done r' ->
  exists L', inv c r' L' /\ step_to c a r r' L L'.
Proof.
  intros CO (s & ls & act & -> & I) OK EX.
  assert (forall r'' ls'' act'' new, inv_at c s r'' ls'' act'' -> concat ls'' ++ act'' = (concat ls ++ act) ++ new ->
    chain (get_leo r) new (get_leo r'') -> added_by a (get_leo r) new ->
    exists L', inv c r'' L' /\ step_to c a r r'' (concat ls ++ act) L') as FIN.
  { intros r'' ls'' act'' new I'' E CH AB. exists (concat ls'' ++ act''). split; [exists s, ls'', act''; auto|].
    exists [], (concat ls ++ act), new. split; [reflexivity|]. split; [assumption|].
    split; [rewrite (log_start_ok _ _ _ _ _ I), (log_start_ok _ _ _ _ _ I''); reflexivity|]. split; [assumption|]. split; [assumption|].
    destruct a; auto. }
  destruct a as [now l upd|o| |now|now k|now b n k]; cbn [exec] in EX.
  - destruct OK as (OKl & R). inversion EX as [EX']. clear EX EX'. unfold write_recordset.
    destruct (check_limits c l) as [e|] eqn:CL.
    + apply (FIN r ls act []); [assumption|rewrite app_nil_r; reflexivity|reflexivity|]. exists 0%nat. reflexivity.
    + destruct (write_batches c now r l) as [r1 res] eqn:WB.
      destruct (write_batches_at _ _ _ _ _ _ _ _ _ CO I OKl CL R WB) as (n & ls' & act' & I' & MB & HW & N & F & LEO & POS & D).
      destruct res as [e|]; cbn [fst].
      * apply (FIN r1 ls' act' (number (get_leo r) (firstn n l))); [assumption|assumption|rewrite LEO; apply number_chain; assumption|exists n; reflexivity].
      * apply (FIN (if upd then update_hw r1 (get_leo r1) else r1) ls' act' (number (get_leo r) (firstn n l)));
          [destruct upd; [apply update_hw_at|]; assumption|assumption|replace (get_leo (if upd then update_hw r1 (get_leo r1) else r1)) with (get_leo r1) by (destruct upd; reflexivity); rewrite LEO; apply number_chain; assumption|exists n; reflexivity].
  - inversion EX; subst. apply (FIN (update_hw r o) ls act []); [apply update_hw_at; assumption|rewrite app_nil_r; reflexivity|reflexivity|reflexivity].
  - inversion EX; subst. eapply drops_step; [apply enforce_size_at; eassumption|assumption|exact Logic.I].
  - inversion EX; subst. eapply drops_step; [apply enforce_ttl_at; eassumption|assumption|exact Logic.I].
  - destruct (restart_at c now s r ls act k CO I) as (r1 & I1 & LEO & HW & SH & HWE & LD). rewrite LD in EX.
    destruct (_ <? _) in EX; inversion EX; subst. apply (FIN r' ls act []); [assumption|rewrite app_nil_r; reflexivity|cbn [chain]; lia|reflexivity].
  - destruct (crash_at c now s r ls act b n k CO I OK) as (r1 & new & ls' & act' & m & N & I1 & F & LEO & HW & SH & _ & LD). rewrite LD in EX.
    destruct (_ <? _) in EX; inversion EX; subst. apply (FIN r' ls' act' new); [assumption|assumption| |].
    + destruct N as [->|[-> P]]; cbn [total chain] in *; [lia|]. rewrite with_base_len in *. split; [reflexivity|]. split; lia.
    + destruct N as [->|[-> P]]; cbn; auto.
Qed.

Lemma fresh_inv c now : config_ok c -> inv c (fresh c now) [].
Proof.
  intros CO. exists 0, [], []. split; [reflexivity|]. split; [reflexivity|]. split; [|lia].
  apply new_inv; [destruct CO; lia|lia].
Qed.
Lemma steps_inv c P r r' : config_ok c -> steps c P r r' -> forall L, inv c r L -> exists L', inv c r' L'.
Proof.
  intros CO ST. induction ST as [r|r r1 r2 a ST IH OK HP EX]; intros L I; [eauto|].
  destruct (IH _ I) as (L1 & I1). destruct (step _ _ _ _ _ CO I1 OK EX) as (L2 & I2 & _). eauto.
Qed.
Lemma reached_inv c r : config_ok c -> reached c r -> exists L, inv c r L.
Proof. intros CO (now & ST). eapply steps_inv; [assumption|exact ST|apply fresh_inv; assumption]. Qed.
