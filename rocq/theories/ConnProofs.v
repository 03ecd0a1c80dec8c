(** Lemmas on connectors. *)
From Coq Require Import ZArith List Bool Lia.
Import ListNotations.
From Verif Require Import Base ConnModel ConnSpec.
Open Scope Z_scope.

Lemma same_iff : forall a b, same a b = true <-> a = b.
Proof. intros a b. unfold same. destruct (list_eq_dec Z.eq_dec a b); intuition congruence. Qed.
Lemma same_refl : forall a, same a a = true.
Proof. intros a. now apply same_iff. Qed.
Lemma lookup_in : forall A k (v : A) l, lookup k l = Some v -> In (k, v) l.
Proof.
  intros A k v l. induction l as [|[x w] l IH]; cbn [lookup]; [discriminate|]. destruct (same x k) eqn:E.
  - apply same_iff in E. intros H. injection H as <-. left. now subst.
  - intros H. right. auto.
Qed.
Lemma lookup_map : forall A B (f : A -> B) k l, lookup k (map (fun p => (fst p, f (snd p))) l) = option_map f (lookup k l).
Proof. intros A B f k l. induction l as [|[x w] l IH]; [reflexivity|]. cbn [map lookup fst snd]. destruct (same x k); [reflexivity | exact IH]. Qed.

(** * Schemas *)

Lemma schema_ind2 : forall P : schema -> Prop, (forall t, P (Type_ t)) ->
  (forall a props r, (forall k s, In (k, Some s) props -> P s) -> P (Object a props r)) -> forall s, P s.
Proof.
  intros P HT HO. fix IH 1. intros [t | a props r]; [apply HT|]. apply HO.
  induction props as [|[x o] props IHp]; [intros k s []|]. intros k s [E | X]; [|exact (IHp k s X)].
  injection E as _ E. destruct o as [s'|]; [|discriminate]. injection E as <-. apply IH.
Qed.

Lemma validate_step : forall a props r v, validate_schema (Object a props r) v = true <->
  (r = [] \/ exists m, v = YMap m /\ forall k, In k r -> exists o x, lookup k props = Some o /\ lookup k m = Some x /\ (forall s, o = Some s -> validate_schema s x = true)).
Proof.
  intros a props r v. destruct r as [|k0 r0]; [cbn [validate_schema]; intuition|].
  assert (L : forall k, lookup k (map (fun p => match p with (n, None) => (n, None) | (n, Some s') => (n, Some (validate_schema s')) end) props) = option_map (option_map validate_schema) (lookup k props)).
  { intros k. rewrite <- lookup_map. f_equal. apply map_ext. intros [n [s'|]]; reflexivity. }
  destruct v as [| | | | |m]; try (cbn [validate_schema]; split; [discriminate | intros [X | (m & X & _)]; discriminate]).
  cbn [validate_schema]. rewrite forallb_forall. split.
  - intros H. right. exists m. split; [reflexivity|]. intros k X. specialize (H k X). cbv beta zeta in H. rewrite L in H.
    destruct (lookup k props) as [o|] eqn:E; [|discriminate]. cbn [option_map] in H. destruct (lookup k m) as [x|] eqn:F; [|destruct o; discriminate].
    exists o, x. repeat split; auto. intros s ->. exact H.
  - intros [X | (m' & X & H)]; [discriminate|]. injection X as <-. intros k I. destruct (H k I) as (o & x & E & F & G). cbv beta zeta. rewrite L, E, F. cbn [option_map].
    destruct o as [s|]; [now apply G | reflexivity].
Qed.

Lemma validate_exactly : forall s v, validate_schema s v = true <-> complete s /\ forall p, needed s p -> value_at v p <> None.
Proof.
  intros s. induction s as [t | a props r IH] using schema_ind2; intros v.
  - split; [intros _|reflexivity]. split.
    + intros q u k H. inversion H; subst; intros X; cbn [required_of] in *; contradiction.
    + intros p (q & k & u & _ & H & X). inversion H; subst; cbn [required_of] in *; contradiction.
  - rewrite validate_step. split.
    + intros [-> | (m & -> & H)].
      * split.
        -- intros q u k L. inversion L; subst; intros X; cbn [required_of] in *; contradiction.
        -- intros p (q & k & u & _ & L & X). inversion L; subst; cbn [required_of] in *; contradiction.
      * split.
        -- intros q u k L X. inversion L as [s0 | s0 k1 t1 p1 u1 I1 P1 L1]; subst.
           ++ cbn [required_of property] in *. destruct (H k X) as (o & x & E & _). now rewrite E.
           ++ cbn [required_of property] in *. destruct (H k1 I1) as (o & x & E & F & G). rewrite P1 in E. injection E as <-.
              specialize (G t1 eq_refl). apply (IH k1 t1 (lookup_in _ _ _ _ P1)) in G. destruct G as [C _]. exact (C p1 u k L1 X).
        -- intros p (q & k & u & -> & L & X). inversion L as [s0 | s0 k1 t1 p1 u1 I1 P1 L1]; subst.
           ++ cbn [required_of] in *. destruct (H k X) as (o & x & E & F & _). cbn [app value_at]. now rewrite F.
           ++ cbn [required_of property] in *. destruct (H k1 I1) as (o & x & E & F & G). rewrite P1 in E. injection E as <-.
              specialize (G t1 eq_refl). apply (IH k1 t1 (lookup_in _ _ _ _ P1)) in G. destruct G as [_ N]. cbn [app value_at]. rewrite F. apply N. exists p1, k, u. auto.
    + intros [C N]. destruct r as [|k0 r0]; [now left|]. right.
      assert (M : exists m, v = YMap m).
      { assert (X : value_at v [k0] <> None) by (apply N; exists [], k0, (Object a props (k0 :: r0)); split; [reflexivity|]; split; [constructor | now left]).
        cbn [value_at] in X. destruct v; try congruence. eauto. }
      destruct M as (m & ->). exists m. split; [reflexivity|]. intros k X.
      assert (P : property (Object a props (k0 :: r0)) k <> None) by (exact (C [] _ k (leads_here _) X)).
      cbn [property] in P. destruct (lookup k props) as [o|] eqn:E; [|congruence].
      assert (V : value_at (YMap m) [k] <> None) by (apply N; exists [], k, (Object a props (k0 :: r0)); split; [reflexivity|]; split; [constructor | exact X]).
      cbn [value_at] in V. destruct (lookup k m) as [x|] eqn:F; [|congruence]. exists o, x. repeat split; auto. intros s ->.
      apply (IH k s (lookup_in _ _ _ _ E)). split.
      * intros q t k1 L I. refine (C (k :: q) t k1 _ I). econstructor; [exact X | exact E | exact L].
      * intros p (q & k1 & t & -> & L & I). assert (W : value_at (YMap m) (k :: q ++ [k1]) <> None).
        { apply N. exists (k :: q), k1, t. split; [reflexivity|]. split; [|exact I]. econstructor; [exact X | exact E | exact L]. }
        cbn [value_at] in W. rewrite F in W. exact W.
Qed.

(** * Trimming *)

Lemma trim_start_app : forall u w, white w = true -> trim_start (u ++ [w]) = match trim_start u with [] => [] | t => t ++ [w] end.
Proof.
  induction u as [|c u IH]; intros w W; cbn [app trim_start]; [now rewrite W|]. destruct (white c) eqn:E; [apply IH; exact W | reflexivity].
Qed.
Lemma trim_white : forall u w, white w = true -> trim (u ++ [w]) = trim u.
Proof.
  intros u w W. unfold trim. rewrite trim_start_app by exact W. destruct (trim_start u) as [|c t]; [reflexivity|]. rewrite rev_app_distr. cbn [rev app trim_start]. now rewrite W.
Qed.
Lemma trim_drop_cr : forall v, trim (drop_cr v) = trim v.
Proof.
  intros v. unfold drop_cr. destruct (rev v) as [|c t] eqn:E; [reflexivity|]. destruct (Z.eqb_spec c 13); [|reflexivity]. subst.
  assert (v = rev t ++ [13]) as -> by (rewrite <- (rev_involutive v), E; reflexivity). now rewrite trim_white.
Qed.
Lemma trim_start_split : forall l, exists a, l = a ++ trim_start l /\ forallb white a = true.
Proof.
  induction l as [|c l (a & E & W)]; [exists []; auto|]. cbn [trim_start]. destruct (white c) eqn:F; [|exists []; auto].
  exists (c :: a). split; [cbn [app]; now rewrite <- E | cbn [forallb]; now rewrite F].
Qed.
Lemma trim_start_bare : forall l, match trim_start l with [] => True | c :: _ => white c = false end.
Proof. induction l as [|c l IH]; [exact I|]. cbn [trim_start]. destruct (white c) eqn:E; [exact IH | exact E]. Qed.
Lemma trim_start_id : forall l, match l with [] => True | c :: _ => white c = false end -> trim_start l = l.
Proof. intros [|c l]; [reflexivity|]. intros E. cbn [trim_start]. now rewrite E. Qed.
Lemma forallb_rev : forall (f : Z -> bool) l, forallb f l = true -> forallb f (rev l) = true.
Proof. intros f l H. rewrite forallb_forall in *. intros x X. apply H. now apply in_rev. Qed.
Lemma last_rev : forall (t : text) c, rev t = c :: tl (rev t) -> last t 0 = c.
Proof.
  intros t c H. assert (t = rev (tl (rev t)) ++ [c]) as -> by (rewrite <- (rev_involutive t) at 1; rewrite H at 1; reflexivity). apply last_last.
Qed.
Lemma trimmed : forall v, bare (trim v) /\ exists a b, v = a ++ trim v ++ b /\ forallb white a = true /\ forallb white b = true.
Proof.
  intros v. unfold trim. destruct (trim_start_split v) as (a & E & W). destruct (trim_start_split (rev (trim_start v))) as (b & F & X).
  assert (G : trim_start v = rev (trim_start (rev (trim_start v))) ++ rev b) by (rewrite <- rev_app_distr, <- F; now rewrite rev_involutive).
  split.
  - set (u := trim_start v) in *. set (w := trim_start (rev u)) in *. unfold bare. destruct (rev w) as [|c t] eqn:R; [exact I|].
    split.
    + pose proof (trim_start_bare v) as B. fold u in B. rewrite G in B. exact B.
    + pose proof (trim_start_bare (rev u)) as B. fold w in B. destruct w as [|d w']; [discriminate|].
      rewrite (last_rev (c :: t) d); [exact B|]. rewrite <- R, rev_involutive. reflexivity.
  - exists a, (rev b). split; [|split; [exact W | now apply forallb_rev]]. rewrite <- G. exact E.
Qed.
Lemma trim_bare : forall v, bare v -> trim v = v.
Proof.
  intros v B. unfold trim. rewrite (trim_start_id v) by (destruct v; [exact I | exact (proj1 B)]). rewrite trim_start_id; [apply rev_involutive|].
  destruct (rev v) as [|c t] eqn:E; [exact I|]. destruct v as [|d v']; [discriminate|]. destruct B as [_ B]. rewrite (last_rev _ c) in B; [exact B|]. rewrite E. reflexivity.
Qed.

(** * The file *)

Lemma split_lines_app : forall l rest acc, ~ In 10 l -> split_lines (l ++ 10 :: rest) acc = (acc ++ l) :: split_lines rest [].
Proof.
  induction l as [|c l IH]; intros rest acc H; cbn [app split_lines].
  - rewrite Z.eqb_refl, app_nil_r. reflexivity.
  - destruct (Z.eqb_spec c 10); [subst; exfalso; apply H; now left|]. rewrite IH by (intros X; apply H; now right). now rewrite <- app_assoc.
Qed.
Lemma split_eq_app : forall k v acc, ~ In 61 k -> split_eq (k ++ 61 :: v) acc = Some (acc ++ k, v).
Proof.
  induction k as [|c k IH]; intros v acc H; cbn [app split_eq].
  - rewrite Z.eqb_refl, app_nil_r. reflexivity.
  - destruct (Z.eqb_spec c 61); [subst; exfalso; apply H; now left|]. rewrite IH by (intros X; apply H; now right). now rewrite <- app_assoc.
Qed.
Lemma drop_cr_pair : forall k v, drop_cr (k ++ 61 :: v) = k ++ 61 :: drop_cr v.
Proof.
  intros k v. unfold drop_cr at 1. rewrite rev_app_distr. cbn [rev]. unfold drop_cr. destruct (rev v) as [|c t] eqn:E.
  - cbn [app]. reflexivity.
  - cbn [app]. destruct (c =? 13); [|reflexivity]. rewrite rev_app_distr, rev_involutive. rewrite rev_app_distr. reflexivity.
Qed.
Lemma valid_chars : forall n c, valid_name n = true -> In c n -> digit c || letter c || (c =? 95) = true.
Proof.
  intros n c V X. destruct n as [|d n]; [contradiction|]. unfold valid_name in V. apply andb_true_iff in V as [V _]. rewrite forallb_forall in V. now apply V.
Qed.
Lemma word_char : forall c, digit c || letter c || (c =? 95) = true -> white c = false /\ c <> 61 /\ c <> 10.
Proof.
  intros c H. unfold digit, letter, white in *. rewrite !orb_true_iff, !andb_true_iff, !Z.leb_le, Z.eqb_eq in H. split; [|lia].
  rewrite !orb_false_iff, !andb_false_iff, !Z.leb_gt, !Z.eqb_neq. repeat split; lia.
Qed.
Lemma valid_bare : forall n, valid_name n = true -> bare n.
Proof.
  intros n V. destruct n as [|c n]; [exact I|]. split.
  - apply word_char. apply (valid_chars (c :: n)); [exact V | now left].
  - apply word_char. apply (valid_chars (c :: n)); [exact V|]. destruct (exists_last (l := c :: n) ltac:(discriminate)) as (l & a & E). rewrite E, last_last, in_app_iff. right. now left.
Qed.
Lemma valid_no : forall n, valid_name n = true -> ~ In 61 n /\ ~ In 10 n.
Proof. intros n V. split; intros X; apply (valid_chars n _ V) in X; apply word_char in X; lia. Qed.

Lemma file_read : forall l n, (forall e, In e l -> valid_name (fst e) = true /\ ~ In 10 (snd e)) -> valid_name n = true ->
  read_file (file_of l) n = option_map trim (lookup n l).
Proof.
  intros l n H V. unfold read_file, lines. induction l as [|[k v] l IH]; [reflexivity|].
  destruct (H (k, v) (or_introl eq_refl)) as [VK NV]. cbn [fst snd] in VK, NV. destruct (valid_no k VK) as [K1 K2].
  unfold file_of. cbn [flat_map fst snd]. rewrite <- !app_assoc. cbn [app].
  replace (k ++ 61 :: v ++ 10 :: flat_map (fun e => fst e ++ 61 :: snd e ++ [10]) l) with ((k ++ 61 :: v) ++ 10 :: file_of l) by (rewrite <- app_assoc; reflexivity).
  rewrite split_lines_app.
  2: { rewrite in_app_iff. intros [X | [X | X]]; [now apply K2 | discriminate | now apply NV]. }
  cbn [app map read_lines]. rewrite drop_cr_pair, split_eq_app by exact K1. cbn [app lookup].
  rewrite (trim_bare k), (trim_bare n) by (now apply valid_bare). rewrite trim_drop_cr. destruct (same k n); [reflexivity|].
  apply IH. intros e X. apply H. now right.
Qed.

(** * Rendering *)

Lemma context_some : forall st names, (exists ctx, context st names = Some ctx) <-> forall n, In n names -> st n <> None.
Proof.
  intros st names. induction names as [|a r IH]; cbn [context].
  - split; [intros _ n [] | intros _; eauto].
  - destruct (st a) as [v|] eqn:E.
    + destruct (context st r) as [l|] eqn:F.
      * split; [|intros _; eauto]. intros _ n [<- | X]; [congruence|]. apply (proj1 IH); eauto.
      * split; [intros (c & X); discriminate|]. intros H. destruct (proj2 IH) as (c & X); [|discriminate]. intros n N. apply H. now right.
    + split; [intros (c & X); discriminate|]. intros H. exfalso. apply (H a); [now left | exact E].
Qed.
Lemma context_lookup : forall st names ctx, context st names = Some ctx -> forall n, (In n names -> lookup n ctx = st n) /\ (~ In n names -> lookup n ctx = None).
Proof.
  intros st names. induction names as [|a r IH]; cbn [context]; intros ctx H n.
  - injection H as <-. split; [intros [] | reflexivity].
  - destruct (st a) as [v|] eqn:E; [|discriminate]. destruct (context st r) as [l|] eqn:F; [|discriminate]. injection H as <-. cbn [lookup].
    destruct (same a n) eqn:S.
    + apply same_iff in S. subst. split; [intros _; now symmetry | intros X; exfalso; apply X; now left].
    + assert (a <> n) by (intros X; apply same_iff in X; congruence). destruct (IH l eq_refl n) as [A B]. split.
      * intros [X | X]; [contradiction | auto].
      * intros X. apply B. intros Y. apply X. now right.
Qed.
Lemma expand_filled : forall st names ctx, context st names = Some ctx -> forall t out,
  expand ctx t = Some out <-> (forall n, In (Use n) t -> In n names) /\ filled st t out.
Proof.
  intros st names ctx C t. induction t as [|p t IH]; intros out; cbn [expand].
  - split; [intros H; injection H as <-; split; [intros n [] | constructor] | intros [_ H]; inversion H; reflexivity].
  - destruct p as [x | n].
    + destruct (expand ctx t) as [y|] eqn:E.
      * split.
        -- intros H. injection H as <-. destruct (proj1 (IH y) eq_refl) as [U F]. split; [|now constructor]. intros n [X | X]; [discriminate | auto].
        -- intros [U F]. inversion F as [| x0 t0 y0 F0 |]; subst. assert (Some y = Some y0) as G by (apply IH; split; [intros n X; apply U; now right | exact F0]). now injection G as <-.
      * split; [discriminate|]. intros [U F]. inversion F as [| x0 t0 y0 F0 |]; subst. assert (None = Some y0) as G by (apply IH; split; [intros n X; apply U; now right | exact F0]). discriminate.
    + destruct (context_lookup st names ctx C n) as [A B]. destruct (in_dec (list_eq_dec Z.eq_dec) n names) as [I1 | N1].
      * rewrite (A I1). destruct (st n) as [v|] eqn:S.
        -- destruct (expand ctx t) as [y|] eqn:E.
           ++ split.
              ** intros H. injection H as <-. destruct (proj1 (IH y) eq_refl) as [U F]. split; [|now constructor]. intros m [X | X]; [injection X as <-; exact I1 | auto].
              ** intros [U F]. inversion F as [| | n0 v0 t0 y0 S0 F0]; subst. assert (Some y = Some y0) as G by (apply IH; split; [intros m X; apply U; now right | exact F0]). injection G as <-. rewrite S in S0. injection S0 as <-. reflexivity.
           ++ split; [discriminate|]. intros [U F]. inversion F as [| | n0 v0 t0 y0 S0 F0]; subst. assert (None = Some y0) as G by (apply IH; split; [intros m X; apply U; now right | exact F0]). discriminate.
        -- split; [discriminate|]. intros [U F]. inversion F; subst. congruence.
      * rewrite (B N1). split; [discriminate|]. intros [U F]. exfalso. apply N1, U. now left.
Qed.
Lemma render_exactly : forall st c t out, render st c t = Some out <->
  (forall n, In n (declared c) -> st n <> None) /\ (forall n, In (Use n) t -> In n (declared c)) /\ filled st t out.
Proof.
  intros st c t out. unfold render. destruct (context st (declared c)) as [ctx|] eqn:E.
  - rewrite (expand_filled st (declared c) ctx E). split; [|tauto]. intros [A B]. split; [|tauto]. apply context_some. eauto.
  - split; [discriminate|]. intros (A & _). apply context_some in A as (ctx & F). congruence.
Qed.
Lemma filled_ext : forall st st' t out, (forall n, In (Use n) t -> st n = st' n) -> filled st t out -> filled st' t out.
Proof.
  intros st st' t out H F. induction F as [|x t y F IH|n v t y E F IH]; [constructor| |].
  - constructor. apply IH. intros n X. apply H. now right.
  - constructor; [|apply IH; intros m X; apply H; now right]. rewrite <- E. symmetry. apply H. now left.
Qed.
