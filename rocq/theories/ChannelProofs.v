(** Proofs about release channels. *)
From Coq Require Import ZArith List Bool Lia.
Import ListNotations.
From Verif Require Import Base ChannelModel ChannelSpec.
Open Scope Z_scope.

Lemma chan_eq a b : chan_eqb a b = true <-> a = b.
Proof.
  destruct a, b; cbn; split; try discriminate; auto; try (intros H; apply Z.eqb_eq in H; congruence); try (intros [= <-]; apply Z.eqb_refl).
  - rewrite andb_true_iff, eqb_true_iff, Z.eqb_eq. intros (-> & ->). reflexivity.
  - intros [= <- <-]. rewrite eqb_reflx. apply Z.eqb_refl.
Qed.
Lemma chan_refl a : chan_eqb a a = true. Proof. now apply chan_eq. Qed.
Lemma chan_neq a b : chan_eqb a b = false <-> a <> b.
Proof. rewrite <- not_true_iff_false, chan_eq. tauto. Qed.
Lemma path_eq a b : path_eqb a b = true <-> a = b.
Proof.
  destruct a, b; cbn; split; try discriminate; auto; try (intros H; apply chan_eq in H; congruence); try (intros [= <-]; apply chan_refl);
    try (intros H; apply Z.eqb_eq in H; congruence); try (intros [= <-]; apply Z.eqb_refl).
Qed.
Lemma path_refl a : path_eqb a a = true. Proof. now apply path_eq. Qed.
Lemma path_neq a b : path_eqb a b = false <-> a <> b.
Proof. rewrite <- not_true_iff_false, path_eq. tauto. Qed.
Lemma set_chan_at c x t : set_chan c x t c = x. Proof. unfold set_chan. now rewrite chan_refl. Qed.
Lemma set_chan_off c x t d : d <> c -> set_chan c x t d = t d. Proof. intros N. apply chan_neq in N. unfold set_chan. now rewrite N. Qed.
Lemma set_at_at c x t : set_at c x t c = x. Proof. unfold set_at. now rewrite path_refl. Qed.
Lemma set_at_off c x t d : d <> c -> set_at c x t d = t d. Proof. intros N. apply path_neq in N. unfold set_at. now rewrite N. Qed.

Lemma opened_holds f m g : h_conf m f = Holds g -> opened f m = (f, g).
Proof. unfold opened. now intros ->. Qed.
Lemma save_current g m : current (save 0 g m) = g_cur g. Proof. reflexivity. Qed.
Lemma save_known g m c : known (save 0 g m) c = g_chan g c. Proof. reflexivity. Qed.

(** ** Running *)
Lemma run_current m b c i : current m = Some c -> known m c = Some i ->
  after m (Run b false) = m /\
  ans m (Run b false) = match h_at m (i_bin i) with Some (Rel v) => Ran v c (i_ext i) (i_tag i) | Some Front => Loop | _ => Quiet end.
Proof.
  unfold current, known, after, ans. cbn. unfold run. destruct (h_conf m 0) as [| |g]; try discriminate. intros -> ->. cbn. split; auto.
Qed.
Lemma run_none m b u : usable m -> (match current m with Some c => known m c = None | None => True end) -> ans m (Run b u) = Failed /\ after m (Run b u) = m.
Proof.
  intros (g & H). unfold current, known, ans, after. cbn. unfold run. rewrite H. destruct (g_cur g) as [c|]; [intros -> | intros _]; auto.
Qed.
Lemma run_broken m b u : h_conf m 0 = Broken -> ans m (Run b u) = Failed.
Proof. unfold ans. cbn. unfold run. now intros ->. Qed.
Lemma run_update m b c i : current m = Some c -> known m c = Some i ->
  ans m (Run b true) = if match c with Stable | Latest | Dev => true | _ => false end then ans m (Run b false) else Unsupported.
Proof.
  unfold current, known, ans. cbn. unfold run. destruct (h_conf m 0) as [| |g]; try discriminate. intros -> ->. cbn. unfold exec. destruct c; reflexivity.
Qed.
Lemma first_run m : h_conf m 0 = Missing -> let m' := after m (Run None false) in current m' = Some Stable /\ known m' Stable = built_in Stable /\ (forall c, c <> Stable -> known m' c = None) /\ h_at m' = h_at m.
Proof.
  intros H. unfold after. cbn. unfold run. rewrite H. cbn. repeat split; auto. intros c C. unfold known. cbn. now apply set_chan_off.
Qed.
Lemma boot_run m c : h_conf m 0 = Missing -> let m' := after m (Run (Some c) false) in
  match c with
  | Dev | Word _ => ans m (Run (Some c) false) = Failed /\ m' = m
  | _ => current m' = Some c /\ known m' c = Some (mkInfo (Bin c) (Ext c) (match c with Latest | Loud true _ => ByBoth | _ => ByVersion end))
  end.
Proof.
  intros H. unfold after, ans. cbn. unfold run. rewrite H. destruct c as [| | |v|[] k|k]; cbn; auto; (split; [reflexivity |]); unfold known; cbn; unfold set_chan; cbn; rewrite ?Z.eqb_refl; reflexivity.
Qed.

(** ** Switching *)
Lemma switch_known m c n : known m c <> None -> let m' := after m (Switch 0 c n) in
  ans m (Switch 0 c n) = Done /\ current m' = Some c /\ (forall d, known m' d = known m d) /\ h_at m' = h_at m.
Proof.
  unfold known at 1. destruct (h_conf m 0) as [| |g] eqn:H; try congruence. intros K. unfold after, ans. cbn. unfold switch. rewrite (opened_holds _ _ _ H).
  destruct (g_chan g c) eqn:G; [| congruence]. cbn. repeat split; auto. intros d. unfold known. rewrite H. reflexivity.
Qed.
Lemma switch_refused m c n f : known m c = None -> f = 0 -> built_in c = None -> ans m (Switch f c n) = Failed /\ after m (Switch f c n) = m.
Proof.
  intros K -> B. unfold after, ans. cbn. unfold switch, opened. unfold known in K. destruct (h_conf m 0) as [| |g]; cbn; try rewrite K; destruct c; try discriminate; auto.
Qed.
Lemma switch_new m c n i : known m c = None -> built_in c = Some i -> let m' := after m (Switch 0 c n) in
  current m' = Some c /\ known m' c = Some i /\ (forall d, d <> c -> known m' d = known m d) /\
  (ans m (Switch 0 c n) = Failed <-> c <> Dev /\ h_at m (i_bin i) = None /\ n = NoVersion) /\
  (ans m (Switch 0 c n) = Done \/ ans m (Switch 0 c n) = Failed) /\
  (forall p, p <> i_bin i -> h_at m' p = h_at m p) /\
  h_at m' (i_bin i) = match h_at m (i_bin i), n, c with None, Got v _, Stable => Some (Rel v) | None, Got _ w, Latest => Some (Rel w) | x, _, _ => x end.
Proof.
  intros K B. unfold after, ans. cbn. unfold switch. destruct (opened 0 m) as (w, g) eqn:O.
  assert (W : w = 0 /\ g_chan g c = None /\ forall d, known m d = g_chan g d).
  { unfold opened in O. unfold known in *. destruct (h_conf m 0) as [| |g0]; injection O as <- <-; auto. }
  destruct W as (-> & G & KD). rewrite G.
  destruct c; cbn in B; try discriminate; injection B as <-; cbn [i_bin stable_channel latest_channel dev_channel new_channel].
  - destruct (h_at m (Bin Stable)) as [x|] eqn:X; cbn [is_some fst snd].
    + unfold current, known. cbn. rewrite X. repeat split; auto; try (intros (_ & D & _); discriminate); try discriminate. intros d D. rewrite set_chan_off by auto. symmetry. apply KD.
    + destruct n as [| |v v2]; cbn [install fst snd]; unfold current, known; cbn; rewrite ?X, ?set_at_at; repeat split; auto; try discriminate; try (intros (_ & _ & D); discriminate);
        try (intros d D; rewrite set_chan_off by auto; symmetry; apply KD); try (intros p P; now apply set_at_off).
  - destruct (h_at m (Bin Latest)) as [x|] eqn:X; cbn [is_some fst snd].
    + unfold current, known. cbn. rewrite X. repeat split; auto; try (intros (_ & D & _); discriminate); try discriminate. intros d D. rewrite set_chan_off by auto. symmetry. apply KD.
    + destruct n as [| |v v2]; cbn [install fst snd]; unfold current, known; cbn; rewrite ?X, ?set_at_at; repeat split; auto; try discriminate; try (intros (_ & _ & D); discriminate);
        try (intros d D; rewrite set_chan_off by auto; symmetry; apply KD); try (intros p P; now apply set_at_off).
  - unfold current, known. cbn. repeat split; auto; try discriminate; try (intros (D & _); congruence); try (intros d D; rewrite set_chan_off by auto; symmetry; apply KD).
    destruct (h_at m Own); [destruct n; reflexivity |]. destruct n; reflexivity.
Qed.

(** ** Creating *)
Lemma create_done m c b e s n : let k := Create 0 c b e s n in ans m k = Done ->
  known (after m k) c = Some (asked c b e s) /\ (forall d, d <> c -> known (after m k) d = known m d) /\ current (after m k) = current m /\
  (forall p, p <> i_bin (asked c b e s) -> h_at (after m k) p = h_at m p) /\
  (forall x, h_at m (i_bin (asked c b e s)) = Some x -> h_at (after m k) (i_bin (asked c b e s)) = Some x) /\
  (h_at m (i_bin (asked c b e s)) = None -> forall v, h_at (after m k) (i_bin (asked c b e s)) = Some (Rel v) <-> found_release c n v).
Proof.
  cbv zeta. unfold ans, after. cbn [step]. unfold create. change (mkInfo (or b (Bin c)) (or e (BinExt c)) (or s ByVersion)) with (asked c b e s). generalize (asked c b e s). intros i.
  destruct (opened 0 m) as (w, g) eqn:O.
  assert (W : w = 0 /\ (forall d, known m d = g_chan g d) /\ current m = g_cur g).
  { unfold opened in O. unfold known, current in *. destruct (h_conf m 0) as [| |g0]; injection O as <- <-; auto. }
  destruct W as (-> & KD & CU). intros A.
  assert (R : forall t, let m' := save 0 (mkConfig (g_cur g) (set_chan c (Some i) (g_chan g))) (mkMach (h_conf m) t) in
    known m' c = Some i /\ (forall d, d <> c -> known m' d = known m d) /\ current m' = current m).
  { intros t m'. split; [apply set_chan_at |]. split; [intros d D; rewrite KD; now apply set_chan_off | rewrite CU; reflexivity]. }
  destruct (h_at m (i_bin i)) as [x|] eqn:X; cbn [is_some] in *.
  - destruct (R (h_at m)) as (R1 & R2 & R3). cbn [fst]. split; [exact R1 | split; [exact R2 | split; [exact R3 | split; [auto | split]]]]; [| discriminate]. intros y Y. rewrite <- Y. exact X.
  - destruct (parse c) as [r|] eqn:P; [| discriminate]. destruct (install r n (i_bin i) (h_at m)) as [t|] eqn:T; [| discriminate].
    destruct (R t) as (R1 & R2 & R3). cbn [fst]. split; [exact R1 | split; [exact R2 | split; [exact R3 |]]].
    cbn [save h_at]. split; [| split; [discriminate |]].
    + intros p Q. destruct r, n; cbn in T; try discriminate; injection T as <-; auto; now apply set_at_off.
    + intros _ v. destruct c as [| | |w|[] w|w]; cbn in P; try discriminate; injection P as <-; destruct n as [| |u u2]; cbn in T; try discriminate; injection T as <-;
        rewrite ?X, ?set_at_at; cbn [found_release]; split; intros H; try discriminate; try congruence; try (destruct H as (_ & y & y2 & H); discriminate); try (destruct H as (y & H); congruence); try (injection H as ->; eexists; reflexivity).
      * split; [congruence | eexists; eexists; reflexivity].
Qed.
Lemma create_failed m f c b e s n : let k := Create f c b e s n in ans m k <> Done -> ans m k = Failed /\ after m k = m.
Proof.
  unfold ans, after. cbn. unfold create. destruct (opened f m) as (w, g). destruct (is_some _); cbn; [congruence |].
  destruct (parse c); cbn; auto. destruct (install _ _ _ _); cbn; [congruence | auto].
Qed.
Lemma create_iff m f c b e s n : ans m (Create f c b e s n) = Done <->
  h_at m (i_bin (asked c b e s)) <> None \/ match c with Tag _ => True | Stable | Latest | Loud _ _ => n <> NoVersion | Dev | Word _ => False end.
Proof.
  unfold ans. cbn [step]. unfold create. destruct (opened f m) as (w, g). change (mkInfo (or b (Bin c)) (or e (BinExt c)) (or s ByVersion)) with (asked c b e s).
  destruct (h_at m (i_bin (asked c b e s))) as [x|]; cbn [is_some snd]; [split; auto; intros _; left; discriminate |].
  destruct c as [| | |v|[] v|v]; cbn [parse]; destruct n; cbn; split; intros H; try discriminate; auto; try (right; discriminate); destruct H as [H|H]; try congruence; try destruct H; auto.
Qed.

(** ** Deleting *)
Lemma delete_known m c i : known m c = Some i -> let m' := after m (Delete 0 c) in
  known m' c = None /\ (forall d, d <> c -> known m' d = known m d) /\ current m' = current m /\
  (forall p, p <> i_bin i -> p <> i_ext i -> h_at m' p = h_at m p) /\
  (ans m (Delete 0 c) = Done -> h_at m' (i_bin i) = None /\ h_at m' (i_ext i) = None).
Proof.
  unfold known at 1. destruct (h_conf m 0) as [| |g] eqn:H; try discriminate. intros K. unfold after, ans. cbn. unfold delete. rewrite H, K.
  assert (R : forall t, let m' := mkMach (h_conf (save 0 (mkConfig (g_cur g) (set_chan c None (g_chan g))) m)) t in
    known m' c = None /\ (forall d, d <> c -> known m' d = known m d) /\ current m' = current m).
  { intros t m'. split; [apply set_chan_at |]. unfold known at 2, current at 2. rewrite H. split; [intros d D; now apply set_chan_off | reflexivity]. }
  assert (R0 := R (h_at m)). cbn [save h_conf] in R0.
  destruct (h_at m (i_bin i)) as [x|] eqn:X.
  - assert (G : x <> Dir -> let r := match set_at (i_bin i) None (h_at m) (i_ext i) with
        | Some Dir => (mkMach (h_conf (save 0 (mkConfig (g_cur g) (set_chan c None (g_chan g))) m)) (set_at (i_ext i) None (set_at (i_bin i) None (h_at m))), Done)
        | _ => (mkMach (h_conf (save 0 (mkConfig (g_cur g) (set_chan c None (g_chan g))) m)) (set_at (i_bin i) None (h_at m)), Failed) end in
      known (fst r) c = None /\ (forall d, d <> c -> known (fst r) d = known m d) /\ current (fst r) = current m /\
      (forall p, p <> i_bin i -> p <> i_ext i -> h_at (fst r) p = h_at m p) /\ (snd r = Done -> h_at (fst r) (i_bin i) = None /\ h_at (fst r) (i_ext i) = None)).
    { intros _. destruct (set_at (i_bin i) None (h_at m) (i_ext i)) as [[]|] eqn:E; cbn [fst snd]; destruct (R (set_at (i_bin i) None (h_at m))) as (A & B & C);
        try (split; [exact A | split; [exact B | split; [exact C | split; [intros p P1 P2; cbn; now apply set_at_off | discriminate]]]]).
      split; [exact A | split; [exact B | split; [exact C | split]]].
      - intros p P1 P2. cbn. rewrite !set_at_off by auto. reflexivity.
      - intros _. cbn. rewrite set_at_at. split; auto. unfold set_at at 1. destruct (path_eqb (i_bin i) (i_ext i)); auto. apply set_at_at. }
    destruct x; [apply G; discriminate | apply G; discriminate |]. cbn [fst snd]. destruct R0 as (A & B & C). repeat split; auto; discriminate.
  - cbn [fst snd]. destruct R0 as (A & B & C). repeat split; auto; discriminate.
Qed.
Lemma delete_unknown m c : known m c = None -> ans m (Delete 0 c) = NotFound /\ after m (Delete 0 c) = m.
Proof. unfold known, ans, after. cbn. unfold delete. destruct (h_conf m 0) as [| |g]; auto. intros ->. auto. Qed.
Lemma delete_iff m c i : known m c = Some i -> i_bin i <> i_ext i ->
  (ans m (Delete 0 c) = Done <-> (h_at m (i_bin i) <> None /\ h_at m (i_bin i) <> Some Dir) /\ h_at m (i_ext i) = Some Dir).
Proof.
  unfold known. destruct (h_conf m 0) as [| |g] eqn:H; try discriminate. intros K N. unfold ans. cbn. unfold delete. rewrite H, K. rewrite set_at_off by auto.
  destruct (h_at m (i_bin i)) as [[]|]; destruct (h_at m (i_ext i)) as [[]|]; cbn; split; try discriminate; try (intros ((A & B) & C); congruence); intros _; repeat split; discriminate.
Qed.

(** ** Histories *)
Lemma usable_step m k : usual k -> usable m -> usable (after m k).
Proof.
  intros U (g & H). unfold usable, after. destruct k as [f c b e s n|f c n|f c|b u|f|p x]; cbn in *; try subst f; try tauto; eauto.
  - unfold create. rewrite (opened_holds _ _ _ H). destruct (is_some _); cbn; [eexists; reflexivity |]. destruct (parse c); cbn; [| eauto]. destruct (install _ _ _ _); cbn; [eexists; reflexivity | eauto].
  - unfold switch. rewrite (opened_holds _ _ _ H). destruct (g_chan g c); cbn; [eexists; reflexivity |].
    destruct c; cbn; eauto; try (eexists; reflexivity); destruct (is_some _); cbn; try (eexists; reflexivity); destruct n; cbn; eexists; reflexivity.
  - unfold delete. rewrite H. destruct (g_chan g c) as [i|]; cbn; [| eauto]. destruct (h_at m (i_bin i)) as [[]|]; cbn; try (eexists; reflexivity);
      destruct (set_at (i_bin i) None (h_at m) (i_ext i)) as [[]|]; cbn; eexists; reflexivity.
  - unfold run. rewrite H. destruct (g_cur g); cbn; [| eauto]. destruct (g_chan g c); cbn; eauto.
Qed.
Lemma current_step m k : usual k -> usable m -> no_switch k -> current (after m k) = current m.
Proof.
  intros U (g & H) N. destruct k as [f c b e s n|f c n|f c|b u|f|p x]; cbn in U, N; try subst f; try tauto.
  - destruct (ans m (Create 0 c b e s n)) eqn:A; [now apply create_done | ..]; f_equal; apply create_failed; congruence.
  - destruct (known m c) as [i|] eqn:K; [now apply (delete_known m c i) | f_equal; now apply delete_unknown].
  - unfold after. cbn. unfold run. rewrite H. destruct (g_cur g); cbn; auto. destruct (g_chan g c); auto.
Qed.
Lemma known_step m k c : usual k -> usable m -> leaves c k -> known (after m k) c = known m c.
Proof.
  intros U (g & H) N. destruct k as [f d b e s n|f d n|f d|b u|f|p x]; cbn in U, N; try subst f; try tauto.
  - destruct (ans m (Create 0 d b e s n)) eqn:A; [apply create_done; auto | ..]; f_equal; apply create_failed; congruence.
  - destruct (known m d) as [i|] eqn:K; [apply (delete_known m d i); auto | f_equal; now apply delete_unknown].
  - unfold after. cbn. unfold run. rewrite H. destruct (g_cur g) as [d|]; cbn; auto. destruct (g_chan g d); auto.
Qed.
Lemma history m l : Forall usual l -> usable m -> usable (steps m l) /\ (Forall no_switch l -> current (steps m l) = current m) /\ forall c, Forall (leaves c) l -> known (steps m l) c = known m c.
Proof.
  revert m. induction l as [|k l IH]; intros m U H; [cbn; auto |]. inversion U; subst. change (steps m (k :: l)) with (steps (after m k) l).
  destruct (IH (after m k)) as (A & B & C); auto; [now apply usable_step |]. split; auto. split.
  - intros N. inversion N; subst. rewrite B by auto. now apply current_step.
  - intros c N. inversion N; subst. rewrite C by auto. now apply known_step.
Qed.
Lemma switched m c n : ans m (Switch 0 c n) = Done -> let m' := after m (Switch 0 c n) in
  usable m' /\ current m' = Some c /\ known m' c = match known m c with Some i => Some i | None => built_in c end /\ known m' c <> None.
Proof.
  intros A. assert (G : forall m', current m' = Some c -> usable m').
  { intros m'. unfold current, usable. destruct (h_conf m' 0); try discriminate. eauto. }
  destruct (known m c) as [i|] eqn:K.
  - destruct (switch_known m c n) as (_ & B & C & _); [congruence |]. split; auto. split; auto. rewrite C, K. split; [auto | discriminate].
  - destruct (built_in c) as [i|] eqn:B.
    + destruct (switch_new m c n i K B) as (D & E & _). split; auto. split; auto. rewrite E. split; [auto | discriminate].
    + destruct (switch_refused m c n 0 K eq_refl B) as (F & _). congruence.
Qed.
(** the binary of the channel switched to is what runs *)
Lemma runs_switched m c n l i v b : ans m (Switch 0 c n) = Done -> Forall usual l -> Forall (leaves c) l ->
  known (after m (Switch 0 c n)) c = Some i -> let m' := steps (after m (Switch 0 c n)) l in
  h_at m' (i_bin i) = Some (Rel v) -> ans m' (Run b false) = Ran v c (i_ext i) (i_tag i).
Proof.
  intros A U L K m' X. destruct (switched m c n A) as (S1 & S2 & _ & _). destruct (history _ l U S1) as (_ & B & C).
  assert (N : Forall no_switch l) by (apply Forall_forall; intros k I0; rewrite Forall_forall in L; specialize (L k I0); destruct k; cbn in *; auto).
  destruct (run_current m' b c i) as (_ & R); unfold m'; rewrite ?B, ?C; auto. fold m'. rewrite R, X. reflexivity.
Qed.
(** channels of their own names do not share files *)
Lemma default_apart c d s t b e g : c <> d -> let i := asked c None None s in let j := asked d None None t in
  i_bin i <> i_bin j /\ i_ext i <> i_ext j /\ i_bin i <> i_ext j /\ i_bin i <> i_ext i /\
  (built_in d = Some (mkInfo b e g) -> i_bin i <> b /\ i_ext i <> e /\ i_bin i <> e /\ i_ext i <> b).
Proof.
  cbn. intros N. repeat split; try congruence; destruct d; cbn in *; congruence.
Qed.

(** ** Examples and what is not so *)
Definition started : machine := after installed (Run None false).
Definition with_tag : machine := steps started [Create 0 (Tag 7) None None None (Got 0 0); Switch 0 (Tag 7) NoVersion].

Lemma quiet_refuted : ~ (forall l b, ans (steps installed l) (Run b false) <> Failed -> exists v c e s, ans (steps installed l) (Run b false) = Ran v c e s).
Proof. intros C. destruct (C [] None) as (v & c & e & s & H); [discriminate | discriminate]. Qed.
Lemma retry_refuted : ~ (forall l c n n' b, ans (steps installed l) (Switch 0 c n) = Failed -> ans (after (steps installed l) (Switch 0 c n)) (Switch 0 c (Got n' n')) = Done ->
  ans (after (after (steps installed l) (Switch 0 c n)) (Switch 0 c (Got n' n'))) (Run b false) <> Quiet).
Proof. intros C. apply (C [Run None false] Latest NoVersion 5 None); reflexivity. Qed.
Lemma failed_switch_refuted : ~ (forall l c n, ans (steps installed l) (Switch 0 c n) = Failed -> current (after (steps installed l) (Switch 0 c n)) = current (steps installed l)).
Proof. intros C. specialize (C [Run None false] Latest NoVersion eq_refl). discriminate. Qed.
Lemma dev_refuted : ~ (forall l n b, ans (steps installed l) (Switch 0 Dev n) = Done -> ans (after (steps installed l) (Switch 0 Dev n)) (Run b false) <> Loop).
Proof. intros C. apply (C [] NoVersion None); reflexivity. Qed.
Lemma delete_dev_refuted : ~ (forall l c, h_at (steps installed l) Own = Some Front -> h_at (after (steps installed l) (Delete 0 c)) Own = Some Front).
Proof. intros C. specialize (C [Switch 0 Dev NoVersion] Dev eq_refl). discriminate. Qed.
Lemma delete_current_refuted : ~ (forall l c b, ans (steps installed l) (Delete 0 c) <> NotFound -> ans (after (steps installed l) (Delete 0 c)) (Run b false) <> Failed).
Proof. intros C. apply (C [Run None false] Stable None); [discriminate | reflexivity]. Qed.
Lemma delete_failed_refuted : ~ (forall l c, ans (steps installed l) (Delete 0 c) = Failed -> known (after (steps installed l) (Delete 0 c)) c = known (steps installed l) c).
Proof. intros C. specialize (C [Run None false] Stable eq_refl). discriminate. Qed.
Lemma other_file_refuted : ~ (forall l f c b e s n d, f <> 0 -> known (steps installed l) d <> None -> known (after (steps installed l) (Create f c b e s n)) d <> None).
Proof. intros C. apply (C [Run None false] 1 (Tag 7) None None None (Got 0 0) Stable); [discriminate | discriminate | reflexivity]. Qed.
Lemma create_first_refuted : ~ (forall c b e s n r, ans installed (Create 0 c b e s n) = Done -> ans (after installed (Create 0 c b e s n)) (Run r false) <> Failed).
Proof. intros C. apply (C (Tag 7) None None None (Got 0 0) None); reflexivity. Qed.
Lemma create_missing_refuted : ~ (forall l c b e s n, ans (steps installed l) (Create 0 c b e s n) = Done -> h_at (after (steps installed l) (Create 0 c b e s n)) (i_bin (asked c b e s)) <> None).
Proof. intros C. apply (C [Run None false] (Tag 7) None None None NoPackage); reflexivity. Qed.
Lemma extensions_refuted : ~ (forall c s b, built_in c = Some b -> i_ext (asked c None None s) = i_ext b).
Proof. intros C. specialize (C Stable None _ eq_refl). discriminate. Qed.
