(** Proofs about the wait for the partitions of a topic. *)
From Coq Require Import ZArith List Bool Lia.
Import ListNotations.
From Verif Require Import Base ListFacts ReadyModel ReadySpec.
Open Scope Z_scope.

Definition good (uid : Z) (p : part) : bool := is_owned uid p && p_online p.
Definition goods (uid : Z) (l : list part) : list part := filter (good uid) l.

Lemma good_iff uid p : good uid p = true <-> p_owner p = Some uid /\ p_online p = true.
Proof.
  unfold good, is_owned. destruct (p_owner p) as [o|]; destruct (p_online p); cbn.
  - rewrite andb_true_r, Z.eqb_eq. split; [intros ->; auto | intros [E _]; congruence].
  - rewrite andb_false_r. split; [discriminate | intros [_ E]; discriminate].
  - split; [discriminate | intros [E _]; discriminate].
  - split; [discriminate | intros [E _]; discriminate].
Qed.

Lemma scan_found uid c l : forall n,
  snd (scan uid c n l) = (n <? c) && (c <=? n + zlen (goods uid l)).
Proof.
  induction l as [|p r IH]; intros n; cbn [scan goods filter].
  - rewrite zlen_nil. cbn [snd]. destruct (n <? c) eqn:E1, (c <=? n + 0) eqn:E2; auto.
    apply Z.ltb_lt in E1. apply Z.leb_le in E2. lia.
  - fold (good uid p). fold (goods uid r). destruct (good uid p).
    + rewrite zlen_cons. pose proof (zlen_nonneg (goods uid r)).
      destruct (n + 1 =? c) eqn:E.
      * apply Z.eqb_eq in E. cbn [snd]. symmetry. apply andb_true_iff. split; [apply Z.ltb_lt | apply Z.leb_le]; lia.
      * apply Z.eqb_neq in E. rewrite IH.
        destruct (n + 1 <? c) eqn:E1, (n <? c) eqn:E2, (c <=? n + 1 + zlen (goods uid r)) eqn:E3,
          (c <=? n + (zlen (goods uid r) + 1)) eqn:E4; cbn; auto;
        repeat match goal with
        | H : (_ <? _) = true |- _ => apply Z.ltb_lt in H
        | H : (_ <? _) = false |- _ => apply Z.ltb_ge in H
        | H : (_ <=? _) = true |- _ => apply Z.leb_le in H
        | H : (_ <=? _) = false |- _ => apply Z.leb_gt in H end; lia.
    + apply IH.
Qed.

Lemma scan_counts uid c l : forall n, snd (scan uid c n l) = false -> fst (scan uid c n l) = n + zlen (goods uid l).
Proof.
  induction l as [|p r IH]; intros n; cbn [scan goods filter].
  - intros _. rewrite zlen_nil. cbn. lia.
  - fold (good uid p). fold (goods uid r). destruct (good uid p).
    + rewrite zlen_cons. destruct (n + 1 =? c); [discriminate |]. intros H. rewrite (IH _ H). lia.
    + apply IH.
Qed.

Definition keyed (l : list part) : Prop := NoDup (map p_key l).

Lemma goods_keyed uid l : keyed l -> NoDup (map p_key (goods uid l)).
Proof.
  unfold keyed, goods. induction l as [|p r IH]; cbn; auto. intros H.
  apply NoDup_cons_iff in H. destruct H as [Hn Hr].
  destruct (good uid p); cbn; auto. apply NoDup_cons; auto.
  intros Hi. apply Hn. apply in_map_iff in Hi. destruct Hi as (q & E & Hq). apply filter_In in Hq.
  apply in_map_iff. exists q. tauto.
Qed.

Lemma zlen_map {A B} (f : A -> B) l : zlen (map f l) = zlen l.
Proof. unfold zlen. now rewrite map_length. Qed.

Lemma goods_names uid l : keyed l -> online_names uid l (map p_key (goods uid l)).
Proof.
  intros H. split; [now apply goods_keyed |]. intros k. rewrite in_map_iff. unfold goods. split.
  - intros (p & E & Hp). apply filter_In in Hp. destruct Hp as [Hp Hg]. apply good_iff in Hg. exists p. tauto.
  - intros (p & Hp & E & Ho). exists p. split; auto. apply filter_In. split; auto. now apply good_iff.
Qed.

Lemma all_online_iff uid n l : keyed l -> (all_online uid n l <-> 0 < n <= zlen (goods uid l)).
Proof.
  intros K. destruct (goods_names uid l K) as [Hd Hi]. split.
  - intros (H0 & names & Nd & E & Hn). split; auto. rewrite <- E, <- (zlen_map p_key). unfold zlen.
    apply Nat2Z.inj_le. apply NoDup_incl_length; auto. intros k Hk. apply Hi. now apply Hn.
  - intros [H0 H1]. split; auto. exists (firstn (Z.to_nat n) (map p_key (goods uid l))). repeat split.
    + rewrite <- (firstn_skipn (Z.to_nat n)) in Hd. revert Hd.
      generalize (skipn (Z.to_nat n) (map p_key (goods uid l))) as b.
      generalize (firstn (Z.to_nat n) (map p_key (goods uid l))) as a.
      induction a as [|x a IH]; cbn; intros b Hab; [constructor |].
      apply NoDup_cons_iff in Hab. destruct Hab as [Hx Hab]. constructor; [| eapply IH; eauto].
      intros Hxa. apply Hx. apply in_or_app. auto.
    + unfold zlen in *. rewrite firstn_length, map_length. lia.
    + intros k Hk. apply Hi. rewrite <- (firstn_skipn (Z.to_nat n)). apply in_or_app. auto.
Qed.

Lemma change_keyed e l : keyed l -> keyed (change e l).
Proof.
  assert (W : forall k l0, keyed l0 -> keyed (without k l0)).
  { unfold keyed, without. intros k l0. induction l0 as [|p r IH]; cbn; auto. intros H.
    apply NoDup_cons_iff in H. destruct H as [Hn Hr]. destruct (negb (p_key p =? k)); cbn; auto.
    constructor; auto. intros Hi. apply Hn. apply in_map_iff in Hi. destruct Hi as (q & E & Hq).
    apply filter_In in Hq. apply in_map_iff. exists q. tauto. }
  intros H. destruct e as [p|k]; cbn [change]; [| now apply W].
  unfold keyed. cbn. constructor; [| now apply W].
  intros Hi. apply in_map_iff in Hi. destruct Hi as (q & E & Hq). unfold without in Hq. apply filter_In in Hq.
  destruct Hq as [_ Hq]. rewrite E, Z.eqb_refl in Hq. discriminate.
Qed.

Definition changes (l : list pevent) (ps : list part) : list part := fold_left (fun a e => change e a) l ps.

Lemma run_snoc s l e s' : ready_run s (l ++ [e]) = Some s' <-> exists t, ready_run s l = Some t /\ ready_step t e = Some s'.
Proof.
  revert s. induction l as [|x r IH]; intros s; cbn.
  - destruct (ready_step s e) eqn:E.
    + split; [intros H; exists s; split; auto; congruence | intros (t & Ht & H); injection Ht as <-; congruence].
    + split; [discriminate | intros (t & Ht & H); injection Ht as <-; congruence].
  - destruct (ready_step s x) as [s1|]; [apply IH |]. split; [discriminate | intros (t & Ht & _); discriminate].
Qed.

Lemma moment_last s0 l s : ready_run s0 l = Some s -> moment s0 l s.
Proof. intros H. exists l, []. now rewrite app_nil_r. Qed.
Lemma moment_more s0 l e s : moment s0 l s -> moment s0 (l ++ [e]) s.
Proof. intros (a & b & -> & H). exists a, (b ++ [e]). now rewrite app_assoc. Qed.

(** ** What holds at every moment *)

Record sound (s : rstate) : Prop := {
  so_copy : keyed (r_copy s);
  so_disk : keyed (r_disk s);
  so_way : changes (r_way s) (r_copy s) = r_disk s;
  so_epoch : 0 <= r_epoch s;
  so_task : match r_task s with
    | Some (w, RSync m) | Some (w, RScan m) => m <= r_epoch s
    | Some (w, RWait m n) => m <= r_epoch s /\
        (m = r_epoch s -> n = zlen (goods (n_uid w) (r_copy s)) /\ ~ all_online (n_uid w) (n_count w) (r_copy s))
    | _ => True end }.

(** a scan that begins with an old mark sees a newer copy: the mark of a scan under way is
    not later than the copy, so [m = epoch] afterwards means nothing has changed *)
Lemma sound_step s e s' : sound s -> ready_step s e = Some s' -> sound s'.
Proof.
  intros [Hc Hd Hw He Ht] Hs. destruct e as [c| |w| | |]; cbn [ready_step] in Hs.
  - injection Hs as <-. constructor; cbn; auto; [now apply change_keyed |].
    unfold changes. rewrite fold_left_app. cbn. fold (changes (r_way s) (r_copy s)). now rewrite Hw.
  - destruct (r_way s) as [|c r] eqn:Ew; [discriminate |]. injection Hs as <-.
    constructor; cbn; auto; [now apply change_keyed | lia |].
    destruct (r_task s) as [[w [m|m|m n|a]]|]; try lia; auto.
  - destruct (r_task s) eqn:Et; [discriminate |]. injection Hs as <-. constructor; cbn; auto. destruct (n_mirror w); auto.
  - destruct (r_task s) as [[w [m|m|m n|a]]|] eqn:Et; try discriminate.
    + injection Hs as <-. constructor; cbn; auto. lia.
    + pose proof (scan_found (n_uid w) (n_count w) (r_copy s) 0) as Hf.
      pose proof (scan_counts (n_uid w) (n_count w) (r_copy s) 0) as Hn.
      destruct (scan (n_uid w) (n_count w) 0 (r_copy s)) as [n found]. cbn [fst snd] in *.
      injection Hs as <-. constructor; cbn; auto. destruct found; auto. split; auto. intros _.
      split; [rewrite (Hn eq_refl); apply Z.add_0_l |]. intros Ha. apply (all_online_iff _ _ _ Hc) in Ha.
      symmetry in Hf. apply andb_false_iff in Hf. rewrite Z.ltb_ge, Z.leb_gt in Hf. lia.
  - destruct (r_task s) as [[w [m|m|m n|a]]|] eqn:Et; try discriminate.
    destruct (r_epoch s >? m) eqn:E; [| discriminate]. injection Hs as <-. constructor; cbn; auto. tauto.
  - destruct (r_task s) as [[w [m|m|m n|a]]|] eqn:Et; try discriminate. injection Hs as <-. constructor; cbn; auto.
Qed.

Lemma sound_run l : forall s s', sound s -> ready_run s l = Some s' -> sound s'.
Proof.
  induction l as [|e r IH]; cbn; intros s s' H Hr; [congruence |].
  destruct (ready_step s e) as [t|] eqn:E; [| discriminate]. exact (IH _ _ (sound_step _ _ _ H E) Hr).
Qed.

Lemma sound_start : sound nothing_yet.
Proof. constructor; cbn; try constructor; auto. lia. Qed.

(** ** What was seen *)

Definition told (s0 : rstate) (l : list revent) (w : want) (n : Z) : Prop :=
  exists s1, moment s0 l s1 /\ pending w s1 /\ ~ all_online (n_uid w) (n_count w) (r_copy s1) /\
    exists names, online_names (n_uid w) (r_copy s1) names /\ zlen names = n.
Definition seen_ready (s0 : rstate) (l : list revent) (w : want) : Prop :=
  exists s1, moment s0 l s1 /\ pending w s1 /\ all_online (n_uid w) (n_count w) (r_copy s1).

Definition hist (s0 : rstate) (l : list revent) (s : rstate) : Prop :=
  match r_task s with
  | Some (w, RWait _ n) => told s0 l w n
  | Some (w, RDone Ready) => n_mirror w = true \/ seen_ready s0 l w
  | Some (w, RDone (NotProvisioned n c)) => c = n_count w /\ told s0 l w n
  | _ => True
  end.

Lemma told_more s0 l w n e : told s0 l w n -> told s0 (l ++ [e]) w n.
Proof. intros (s1 & H & R). exists s1. split; auto. now apply moment_more. Qed.
Lemma seen_more s0 l w e : seen_ready s0 l w -> seen_ready s0 (l ++ [e]) w.
Proof. intros (s1 & H & R). exists s1. split; auto. now apply moment_more. Qed.
Lemma hist_more s0 l e s s' : r_task s' = r_task s -> hist s0 l s -> hist s0 (l ++ [e]) s'.
Proof.
  unfold hist. intros ->. destruct (r_task s) as [[w [m|m|m n|[|n c]]]|]; auto.
  - apply told_more.
  - intros [H|H]; auto. right. now apply seen_more.
  - intros [E H]. split; auto. now apply told_more.
Qed.

Lemma hist_run s0 : sound s0 -> hist s0 [] s0 -> forall l s, ready_run s0 l = Some s -> hist s0 l s.
Proof.
  intros So H0. induction l as [|e l IH] using rev_ind; intros s Hr.
  - cbn in Hr. injection Hr as <-. exact H0.
  - apply run_snoc in Hr. destruct Hr as (t & Ht & Hs). specialize (IH t Ht).
    pose proof (sound_run _ _ _ So Ht) as St. pose proof (moment_last _ _ _ Ht) as Mt.
    destruct e as [c| |w| | |]; cbn [ready_step] in Hs.
    + injection Hs as <-. now apply (hist_more s0 l _ t).
    + destruct (r_way t) as [|c r]; [discriminate |]. injection Hs as <-. now apply (hist_more s0 l _ t).
    + destruct (r_task t) eqn:Et; [discriminate |]. injection Hs as <-. unfold hist. cbn.
      destruct (n_mirror w) eqn:Em; auto.
    + destruct (r_task t) as [[w [m|m|m n|a]]|] eqn:Et; try discriminate.
      * injection Hs as <-. exact Logic.I.
      * pose proof (scan_found (n_uid w) (n_count w) (r_copy t) 0) as Hf.
        pose proof (scan_counts (n_uid w) (n_count w) (r_copy t) 0) as Hn.
        destruct (scan (n_uid w) (n_count w) 0 (r_copy t)) as [n found]. cbn [fst snd] in *.
        assert (Pt : pending w t) by (unfold pending; now rewrite Et).
        injection Hs as <-. unfold hist. cbn. destruct found.
        -- right. exists t. split; [now apply moment_more |]. split; auto.
           apply (all_online_iff _ _ _ (so_copy _ St)). symmetry in Hf. apply andb_true_iff in Hf.
           rewrite Z.ltb_lt, Z.leb_le in Hf. lia.
        -- exists t. split; [now apply moment_more |]. split; auto. split.
           ++ intros Ha. apply (all_online_iff _ _ _ (so_copy _ St)) in Ha.
              symmetry in Hf. apply andb_false_iff in Hf. rewrite Z.ltb_ge, Z.leb_gt in Hf. lia.
           ++ exists (map p_key (goods (n_uid w) (r_copy t))). split; [apply goods_names; apply (so_copy _ St) |].
              rewrite zlen_map, (Hn eq_refl). lia.
    + destruct (r_task t) as [[w [m|m|m n|a]]|] eqn:Et; try discriminate.
      destruct (r_epoch t >? m); [| discriminate]. injection Hs as <-. exact Logic.I.
    + destruct (r_task t) as [[w [m|m|m n|a]]|] eqn:Et; try discriminate. injection Hs as <-.
      unfold hist in IH. rewrite Et in IH. unfold hist. cbn. split; auto. now apply told_more.
Qed.

(** ** The copy was once the storage *)

Definition from_disk (ok : list part -> Prop) (s0 : rstate) (l : list revent) (s : rstate) : Prop :=
  forall p q, r_way s = p ++ q -> ok (changes p (r_copy s)) \/ exists s1, moment s0 l s1 /\ r_disk s1 = changes p (r_copy s).

Lemma from_disk_run ok s0 : sound s0 -> from_disk ok s0 [] s0 -> forall l s, ready_run s0 l = Some s -> from_disk ok s0 l s.
Proof.
  intros So H0. induction l as [|e l IH] using rev_ind; intros s Hr.
  - cbn in Hr. injection Hr as <-. exact H0.
  - pose proof (moment_last _ _ _ Hr) as Ms. pose proof (sound_run _ _ _ So Hr) as Ss.
    apply run_snoc in Hr. destruct Hr as (t & Ht & Hs). specialize (IH t Ht).
    assert (M : forall p q, r_way t = p ++ q -> ok (changes p (r_copy t)) \/ exists s1, moment s0 (l ++ [e]) s1 /\ r_disk s1 = changes p (r_copy t)).
    { intros p q E. destruct (IH p q E) as [H|(s1 & H & R)]; auto. right. exists s1. split; auto. now apply moment_more. }
    intros p q E. destruct e as [c| |w| | |]; cbn [ready_step] in Hs.
    + injection Hs as <-. cbn in *. destruct q as [|x q] using rev_ind.
      * rewrite app_nil_r in E. right. eexists. split; [exact Ms |]. cbn. rewrite <- E. exact (eq_sym (so_way _ Ss)).
      * rewrite app_assoc in E. apply app_inj_tail in E. destruct E as [E _]. eapply M; eauto.
    + destruct (r_way t) as [|c r] eqn:Ew; [discriminate |]. injection Hs as <-. cbn in *.
      apply (M (c :: p) q). cbn. congruence.
    + destruct (r_task t); [discriminate |]. injection Hs as <-. cbn in *. eapply M; eauto.
    + destruct (r_task t) as [[w [m|m|m n|a]]|]; try discriminate.
      * injection Hs as <-. cbn in *. eapply M; eauto.
      * destruct (scan (n_uid w) (n_count w) 0 (r_copy t)) as [n found]. injection Hs as <-. cbn in *. eapply M; eauto.
    + destruct (r_task t) as [[w [m|m|m n|a]]|]; try discriminate.
      destruct (r_epoch t >? m); [| discriminate]. injection Hs as <-. cbn in *. eapply M; eauto.
    + destruct (r_task t) as [[w [m|m|m n|a]]|]; try discriminate. injection Hs as <-. cbn in *. eapply M; eauto.
Qed.

Lemma moment_within s0 a b s : moment s0 a s -> moment s0 (a ++ b) s.
Proof. intros (c & d & -> & H). exists c, (d ++ b). now rewrite app_assoc. Qed.

Lemma changes_unowned uid l : forall ps, unowned uid ps -> (forall p, In (PMod p) l -> p_owner p <> Some uid) -> unowned uid (changes l ps).
Proof.
  assert (W : forall k ps, unowned uid ps -> unowned uid (without k ps)).
  { intros k ps H p Hp. unfold without in Hp. apply filter_In in Hp. now apply H. }
  induction l as [|e r IH]; intros ps H Hl; cbn; auto. apply IH.
  - destruct e as [p|k]; cbn [change]; [| now apply W]. intros q [<-|Hq]; [apply Hl; now left |]. exact (W (p_key p) ps H q Hq).
  - intros p Hp. apply Hl. now right.
Qed.

Lemma unowned_not uid n ps : unowned uid ps -> ~ all_online uid n ps.
Proof.
  intros U (H0 & names & Nd & E & H). destruct names as [|k r]; [rewrite zlen_nil in E; lia |].
  destruct (H k (or_introl eq_refl)) as (p & Hp & _ & Ho & _). exact (U p Hp Ho).
Qed.
