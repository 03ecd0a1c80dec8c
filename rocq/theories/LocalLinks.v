(** Proofs about owners and their lists of children. *)
From Coq Require Import Sorting.Sorted.
From Verif Require Export LocalClaims.

(** * Equality of metadata *)
Section Item_ind.
Context (P : item -> Prop)
  (H : forall n r p c, (forall x, p = Some x -> P x) -> (forall m, c = Some m -> Forall (fun kl => Forall P (snd kl)) m) -> P (mkItem n r p c)).
Fixpoint item_ind' (i : item) : P i :=
  match i with
  | mkItem n r p c =>
      H n r p c
        (fun x e => match p as q return q = Some x -> P x with
                    | Some y => fun e => match e in _ = z return match z with Some x => P x | None => True end with eq_refl => item_ind' y end
                    | None => fun e => match e in _ = z return match z with Some _ => P x | None => True end with eq_refl => Logic.I end
                    end e)
        (fun m e => match c as q return q = Some m -> Forall (fun kl => Forall P (snd kl)) m with
                    | Some m' => fun e => match e in _ = z return match z with Some m => Forall (fun kl => Forall P (snd kl)) m | None => True end with eq_refl =>
                        (fix go (l : list (kind * list item)) : Forall (fun kl => Forall P (snd kl)) l :=
                           match l with
                           | [] => Forall_nil _
                           | (k, is) :: t =>
                               Forall_cons (P := fun kl => Forall P (snd kl)) (k, is)
                                 ((fix go' (l : list item) : Forall P l := match l with [] => Forall_nil _ | j :: t => Forall_cons j (item_ind' j) (go' t) end) is)
                                 (go t)
                           end) m' end
                    | None => fun e => match e in _ = z return match z with Some _ => Forall (fun kl => Forall P (snd kl)) m | None => True end with eq_refl => Logic.I end
                    end e)
  end.
End Item_ind.

Lemma item_eqb_eq a : forall b, item_eqb a b = true <-> a = b.
Proof.
  induction a as [n r p c IHp IHc] using item_ind'. intros [n' r' p' c']. cbn [item_eqb].
  assert (Pe : match p, p' with Some x, Some y => item_eqb x y | None, None => true | _, _ => false end = true <-> p = p').
  { destruct p as [x|], p' as [y|]; try (split; congruence). rewrite (IHp x eq_refl y). split; congruence. }
  match goal with |- (_ && _ && _ && ?M) = true <-> _ => assert (Ce : M = true <-> c = c') end.
  { destruct c as [m|], c' as [m'|]; try (split; congruence). specialize (IHc m eq_refl). clear IHp Pe.
    assert (X : forall m', (fix maps (x y : list (kind * list item)) {struct x} : bool :=
                match x, y with
                | [], [] => true
                | (k, l) :: x', (k', l') :: y' =>
                    Nat.eqb k k'
                    && (fix items (l l' : list item) {struct l} : bool :=
                          match l, l' with [], [] => true | u :: t, v :: t' => item_eqb u v && items t t' | _, _ => false end) l l'
                    && maps x' y'
                | _, _ => false
                end) m m' = true <-> m = m').
    { clear m'. induction IHc as [|[k l] m F _ IH]; intros [|[k' l'] m']; try (split; congruence).
      rewrite !andb_true_iff, IH, Nat.eqb_eq. cbn [snd] in F.
      assert (Y : forall l', (fix items (l l' : list item) {struct l} : bool :=
                          match l, l' with [], [] => true | u :: t, v :: t' => item_eqb u v && items t t' | _, _ => false end) l l' = true <-> l = l').
      { clear l'. induction F as [|u l Fu _ IHl]; intros [|v l']; try (split; congruence).
        rewrite andb_true_iff, IHl, Fu. split; [intros [-> ->]; reflexivity|intros [= -> ->]; auto]. }
      rewrite Y. split; [intros [[-> ->] ->]; reflexivity|intros [= -> -> ->]; auto]. }
    rewrite X. split; congruence. }
  rewrite !andb_true_iff, Nat.eqb_eq, Z.eqb_eq, Pe, Ce.
  split; [intros [[[-> ->] ->] ->]; reflexivity|intros [= -> -> -> ->]; auto].
Qed.

(** * Sorted maps *)
Definition sorted {A} (m : list (nat * A)) : Prop := StronglySorted (fun x y => (fst x < fst y)%nat) m.
Lemma sorted_put {A} k (a : A) m : sorted m -> sorted (put k a m).
Proof.
  unfold sorted. induction 1 as [|[k' b] t S IH F]; cbn [put]; [repeat constructor|].
  destruct (Nat.eqb_spec k k') as [->|Hn]; [constructor; [exact S|exact F]|].
  destruct (Nat.ltb_spec k k').
  - constructor; [constructor; [exact S|exact F]|]. constructor; [cbn; lia|]. eapply Forall_impl; [|exact F]. cbn. intros; lia.
  - constructor; [exact IH|]. rewrite Forall_forall in *. intros x Hin. apply in_put in Hin. destruct Hin as [->|Hin]; [cbn; lia|apply F; exact Hin].
Qed.
Lemma sorted_del {A} k (m : list (nat * A)) : sorted m -> sorted (del k m).
Proof.
  unfold sorted. induction 1 as [|[k' b] t S IH F]; cbn [del]; [constructor|].
  destruct (Nat.eqb k k'); [exact IH|]. constructor; [exact IH|]. rewrite Forall_forall in *. intros x Hin. apply in_del in Hin. apply F, Hin.
Qed.
Lemma in_sorted {A} k (a : A) m : sorted m -> In (k, a) m -> lookup k m = Some a.
Proof.
  unfold sorted. induction 1 as [|[k' b] t S IH F]; [intros []|]. intros [[= -> ->]|Hin]; cbn [lookup]; [rewrite Nat.eqb_refl; reflexivity|].
  rewrite Forall_forall in F. pose proof (F _ Hin) as L. cbn in L. destruct (Nat.eqb_spec k k'); [lia|]. apply IH. exact Hin.
Qed.

(** * Lists of children *)
Definition clist (i : item) (k : kind) (c : item) : Prop := exists m l, i_children i = Some m /\ In (k, l) m /\ In c l.
Definition csorted (i : item) : Prop := forall m, i_children i = Some m -> sorted m.
Lemma clist_lookup i k c : csorted i -> clist i k c <-> exists m l, i_children i = Some m /\ lookup k m = Some l /\ In c l.
Proof.
  intros S. split; intros [m [l [E [L I]]]]; exists m, l; (split; [exact E|]; split; [|exact I]).
  - apply in_sorted; [apply S; exact E|exact L].
  - apply lookup_in. exact L.
Qed.
Lemma csorted_put i k c : csorted i -> csorted (put_child i k c).
Proof.
  intros S m. unfold put_child. cbn [i_children]. intros [= <-]. apply sorted_put.
  destruct (i_children i) as [m|] eqn:E; [apply S; exact E|constructor].
Qed.
Lemma csorted_remove i k c : csorted i -> csorted (remove_child i k c).
Proof.
  intros S m. unfold remove_child. cbn [i_children]. intros [= <-].
  assert (B : sorted (match i_children i with Some m => m | None => [] end)) by (destruct (i_children i) as [m|] eqn:E; [apply S; exact E|constructor]).
  destruct (lookup k _) as [l|]; [|exact B]. destruct (filter _ l); [apply sorted_del|apply sorted_put]; exact B.
Qed.
Lemma clist_put i k c k' c' : csorted i -> clist (put_child i k c) k' c' <-> clist i k' c' \/ (k' = k /\ c' = c).
Proof.
  intros S. rewrite (clist_lookup _ _ _ (csorted_put i k c S)), (clist_lookup _ _ _ S). unfold put_child. cbn [i_children].
  assert (B : forall l, (exists m0 l0, i_children i = Some m0 /\ lookup k' m0 = Some l0 /\ In l l0) <->
     exists l0, lookup k' (match i_children i with Some m => m | None => [] end) = Some l0 /\ In l l0).
  { intros l. split.
    - intros [m0 [l0 [-> [L I]]]]. eauto.
    - destruct (i_children i) as [m0|]; [intros [l0 [L I]]; eauto|intros [l0 [L I]]; discriminate]. }
  rewrite (B c'). set (m := match i_children i with Some m => m | None => [] end). split.
  - intros [m1 [l1 [[= <-] [L I]]]]. rewrite lookup_put in L. destruct (Nat.eqb_spec k' k) as [->|]; [|left; eauto].
    injection L as <-. destruct (lookup k m) as [l0|] eqn:L0.
    + destruct (existsb (fun x => item_eqb x c) l0); [left; eauto|].
      apply in_app_or in I. destruct I as [I|[<-|[]]]; [left; eauto|right; auto].
    + destruct I as [<-|[]]. right; auto.
  - intros D. destruct (Nat.eq_dec k' k) as [->|Hk].
    + eexists _, _. split; [reflexivity|]. rewrite lookup_put, Nat.eqb_refl. split; [reflexivity|]. destruct (lookup k m) as [l0|] eqn:L0.
      * destruct (existsb (fun x => item_eqb x c) l0) eqn:X.
        -- destruct D as [[l1 [[= <-] I]]|[_ ->]]; [exact I|]. apply existsb_exists in X. destruct X as [x [I Ex]]. apply item_eqb_eq in Ex. subst x. exact I.
        -- apply in_or_app. destruct D as [[l1 [[= <-] I]]|[_ ->]]; [left; exact I|right; left; reflexivity].
      * destruct D as [[l1 [[=] _]]|[_ ->]]. left. reflexivity.
    + destruct D as [[l1 [L I]]|[-> _]]; [|congruence]. eexists _, l1. split; [reflexivity|]. rewrite lookup_put. destruct (Nat.eqb_spec k' k); [contradiction|]. auto.
Qed.
Lemma clist_remove i k c k' c' : csorted i -> clist (remove_child i k c) k' c' <-> clist i k' c' /\ ~ (k' = k /\ c' = c).
Proof.
  intros S. rewrite (clist_lookup _ _ _ (csorted_remove i k c S)), (clist_lookup _ _ _ S). unfold remove_child. cbn [i_children].
  assert (B : forall l, (exists m0 l0, i_children i = Some m0 /\ lookup k' m0 = Some l0 /\ In l l0) <->
     exists l0, lookup k' (match i_children i with Some m => m | None => [] end) = Some l0 /\ In l l0).
  { intros l. split.
    - intros [m0 [l0 [-> [L I]]]]. eauto.
    - destruct (i_children i) as [m0|]; [intros [l0 [L I]]; eauto|intros [l0 [L I]]; discriminate]. }
  rewrite (B c'). set (m := match i_children i with Some m => m | None => [] end).
  assert (L' : forall j, lookup j (match lookup k m with
            | Some l => match filter (fun x => negb (item_eqb x c)) l with [] => del k m | l' => put k l' m end
            | None => m end) = if Nat.eqb j k then match lookup k m with Some l => match filter (fun x => negb (item_eqb x c)) l with [] => None | l' => Some l' end | None => None end else lookup j m).
  { intros j. destruct (lookup k m) as [l|] eqn:L.
    - destruct (filter _ l) as [|x l']; [apply lookup_del|apply lookup_put].
    - destruct (Nat.eqb_spec j k) as [->|]; [exact L|reflexivity]. }
  assert (Fi : forall l, In c' (filter (fun x => negb (item_eqb x c)) l) <-> In c' l /\ c' <> c).
  { intros l. rewrite filter_In, negb_true_iff. split; intros [A N]; split; auto.
    - intros ->. assert (X : item_eqb c c = true) by (apply item_eqb_eq; reflexivity). congruence.
    - destruct (item_eqb c' c) eqn:X; [|reflexivity]. apply item_eqb_eq in X. contradiction. }
  split.
  - intros [m1 [l1 [[= <-] [L I]]]]. rewrite L' in L. destruct (Nat.eqb_spec k' k) as [->|Hk].
    + destruct (lookup k m) as [l0|] eqn:L0; [|discriminate]. specialize (Fi l0).
      destruct (filter _ l0) as [|x l'] eqn:F; [discriminate|]. injection L as <-. apply Fi in I. destruct I as [I N]. split; [eauto|]. intros [_ E]; auto.
    + split; [eauto|]. intros [E _]; auto.
  - intros [[l0 [L0 I]] N]. destruct (Nat.eq_dec k' k) as [->|Hk].
    + assert (Nc : c' <> c) by (intros ->; apply N; auto).
      eexists _, (filter (fun x => negb (item_eqb x c)) l0). split; [reflexivity|]. rewrite L', Nat.eqb_refl, L0. specialize (Fi l0).
      destruct (filter _ l0) as [|x l'] eqn:F; [exfalso; apply (proj2 Fi); auto|]. split; [reflexivity|]. apply Fi. auto.
    + eexists _, l0. split; [reflexivity|]. rewrite L'. destruct (Nat.eqb_spec k' k); [contradiction|]. auto.
Qed.
Lemma mem_clist o k n : mem (children_of o) k n = true <-> exists c, clist (o_item o) k c /\ i_id c = n.
Proof.
  unfold mem, children_of, clist. rewrite existsb_exists. split.
  - intros [[k' l] [I X]]. cbn [fst snd] in X. apply andb_true_iff in X. destruct X as [E X]. apply Nat.eqb_eq in E. subst k'.
    apply existsb_exists in X. destruct X as [c [Ic E]]. apply Nat.eqb_eq in E. exists c. split; [|auto].
    destruct (i_children (o_item o)) as [m|]; [|destruct I]. eauto.
  - intros [c [[m [l [E [I Ic]]]] N]]. rewrite E. exists (k, l). split; [exact I|]. cbn [fst snd]. rewrite Nat.eqb_refl. cbn.
    apply existsb_exists. exists c. split; [exact Ic|]. apply Nat.eqb_eq. auto.
Qed.

(** * Two levels *)
Section Tidy.
Context (owner : kind -> kind).
Record ti (V : kind -> name -> option obj) : Prop := mkTi {
  ti_name : forall k n o, V k n = Some o -> o_name o = n;
  ti_up : forall k n o p, V k n = Some o -> i_parent (o_item o) = Some p ->
    o_rev o = 0 /\ i_children (o_item o) = None /\
    exists po, V (owner k) (i_id p) = Some po /\ i_parent (o_item po) = None /\ clist (o_item po) k (mkItem n 0 None None);
  ti_down : forall k n po k' c, V k n = Some po -> clist (o_item po) k' c ->
    c = mkItem (i_id c) 0 None None /\ owner k' = k /\ exists o p, V k' (i_id c) = Some o /\ i_parent (o_item o) = Some p /\ i_id p = n;
  ti_sorted : forall k n o, V k n = Some o -> csorted (o_item o) }.

Lemma clist_none i k c : i_children i = None -> ~ clist i k c.
Proof. intros E [m [l [E' _]]]. congruence. Qed.
Lemma ti_ext V V' : (forall k n, V' k n = V k n) -> ti V -> ti V'.
Proof.
  intros X [A B C D]. constructor.
  - intros k n o. rewrite X. apply A.
  - intros k n o p. rewrite X. intros Vo P. destruct (B k n o p Vo P) as [R [Ch [po [Vp [Pp L]]]]]. split; [exact R|]. split; [exact Ch|]. exists po. rewrite X. auto.
  - intros k n o k' c. rewrite X. intros Vo L. destruct (C k n o k' c Vo L) as [E [O [o' [p [Vo' P]]]]]. split; [exact E|]. split; [exact O|]. exists o', p. rewrite X. auto.
  - intros k n o. rewrite X. apply D.
Qed.
(** An object without owner is stored, with the children it had. *)
Lemma ti_upd V k o' : ti V -> i_parent (o_item o') = None -> csorted (o_item o') ->
  match V k (o_name o') with
  | Some o => i_parent (o_item o) = None /\ forall k' c, clist (o_item o') k' c <-> clist (o_item o) k' c
  | None => forall k' c, ~ clist (o_item o') k' c
  end -> ti (upd V k (o_name o') o').
Proof.
  intros [A B C D] Po So Ch.
  assert (K : forall k1 n1, (k1 = k /\ n1 = o_name o' /\ upd V k (o_name o') o' k1 n1 = Some o') \/ (~ (k1 = k /\ n1 = o_name o') /\ upd V k (o_name o') o' k1 n1 = V k1 n1)).
  { intros k1 n1. unfold upd. destruct (Nat.eqb_spec k1 k) as [->|]; [|right; split; [tauto|reflexivity]].
    destruct (Nat.eqb_spec n1 (o_name o')) as [->|]; [left; auto|right; split; [tauto|reflexivity]]. }
  constructor.
  - intros k1 n1 o Vo. destruct (K k1 n1) as [[-> [-> E]]|[_ E]]; rewrite E in Vo; [injection Vo as <-; reflexivity|eauto].
  - intros k1 n1 o p Vo P. destruct (K k1 n1) as [[-> [-> E]]|[_ E]]; rewrite E in Vo; [injection Vo as <-; congruence|].
    destruct (B k1 n1 o p Vo P) as [R [Cn [po [Vp [Pp L]]]]]. split; [exact R|]. split; [exact Cn|].
    destruct (K (owner k1) (i_id p)) as [[Ek [En E']]|[_ E']]; rewrite E'; [|eauto].
    rewrite <- Ek, <- En, Vp in Ch. destruct Ch as [_ Ch]. exists o'. split; [reflexivity|]. split; [exact Po|]. apply Ch. exact L.
  - intros k1 n1 po k' c Vo L.
    assert (L0 : exists po0, V k1 n1 = Some po0 /\ clist (o_item po0) k' c).
    { destruct (K k1 n1) as [[-> [-> E]]|[_ E]]; rewrite E in Vo; [|eauto]. injection Vo as <-.
      destruct (V k (o_name o')) as [o|]; [|exfalso; eapply Ch; eauto]. exists o. split; [reflexivity|]. apply Ch. exact L. }
    destruct L0 as [po0 [Vo0 L0]]. destruct (C k1 n1 po0 k' c Vo0 L0) as [E [O [o [p [Vc [P N]]]]]].
    split; [exact E|]. split; [exact O|]. exists o, p. destruct (K k' (i_id c)) as [[Ek [En E']]|[_ E']]; rewrite E'; [|auto].
    rewrite <- Ek, <- En, Vc in Ch. destruct Ch as [Ch _]. congruence.
  - intros k1 n1 o Vo. destruct (K k1 n1) as [[-> [-> E]]|[_ E]]; rewrite E in Vo; [injection Vo as <-; exact So|eauto].
Qed.
Lemma upd_eq V k n o : upd V k n o k n = Some o.
Proof. unfold upd. rewrite !Nat.eqb_refl. reflexivity. Qed.
Lemma upd_neq V k n o k' n' : ~ (k' = k /\ n' = n) -> upd V k n o k' n' = V k' n'.
Proof. intros N. unfold upd. destruct (Nat.eqb_spec k' k); [|reflexivity]. destruct (Nat.eqb_spec n' n); [tauto|reflexivity]. Qed.
Lemma at_dec (k k' : kind) (n n' : name) : (k' = k /\ n' = n) \/ ~ (k' = k /\ n' = n).
Proof. destruct (Nat.eq_dec k' k); [|tauto]. destruct (Nat.eq_dec n' n); tauto. Qed.

(** An object is created for an owner. *)
Lemma ti_child V k o p po : ti V -> V k (o_name o) = None -> o_rev o = 0 -> i_children (o_item o) = None ->
  i_parent (o_item o) = Some p -> V (owner k) (i_id p) = Some po -> i_parent (o_item po) = None ->
  ti (upd (upd V k (o_name o) o) (owner k) (i_id p) (with_item po (with_rev (put_child (o_item po) k (without_parent (o_item o))) (o_rev po + 1)))).
Proof.
  intros T N R Ch P Vp Pp. pose proof T as [A B C D]. set (po' := with_item _ _).
  assert (W : without_parent (o_item o) = mkItem (o_name o) 0 None None).
  { destruct o as [[n r pp cc] sp st]. cbn in *. unfold o_rev in R. cbn in R. subst. reflexivity. }
  assert (Ne : ~ (owner k = k /\ i_id p = o_name o)) by (intros [E1 E2]; rewrite E1, E2 in Vp; congruence).
  assert (Lp : forall k' c, clist (o_item po') k' c <-> clist (o_item po) k' c \/ (k' = k /\ c = mkItem (o_name o) 0 None None)).
  { intros k' c. rewrite <- W, <- (clist_put _ _ _ _ _ (D _ _ _ Vp)). reflexivity. }
  assert (Fresh : forall k1 n1 o1 c, V k1 n1 = Some o1 -> clist (o_item o1) k c -> i_id c <> o_name o).
  { intros k1 n1 o1 c V1 L E. destruct (C _ _ _ _ _ V1 L) as [_ [_ [o2 [p2 [V2 _]]]]]. rewrite E in V2. congruence. }
  assert (Z : forall k1 n1 x, upd (upd V k (o_name o) o) (owner k) (i_id p) po' k1 n1 = Some x ->
    (k1 = owner k /\ n1 = i_id p /\ x = po') \/ (k1 = k /\ n1 = o_name o /\ x = o) \/ (~ (k1 = owner k /\ n1 = i_id p) /\ ~ (k1 = k /\ n1 = o_name o) /\ V k1 n1 = Some x)).
  { intros k1 n1 x. destruct (at_dec (owner k) k1 (i_id p) n1) as [[-> ->]|N1]; [rewrite upd_eq; intros [= <-]; auto|].
    rewrite upd_neq by exact N1. destruct (at_dec k k1 (o_name o) n1) as [[-> ->]|N2]; [rewrite upd_eq; intros [= <-]; auto|].
    rewrite upd_neq by exact N2. intros E. right; right; auto. }
  constructor.
  - intros k1 n1 x E. destruct (Z _ _ _ E) as [[-> [-> ->]]|[[-> [-> ->]]|[_ [_ E']]]]; [exact (A _ _ _ Vp)|reflexivity|eauto].
  - intros k1 n1 x q E Q. destruct (Z _ _ _ E) as [[-> [-> ->]]|[[-> [-> ->]]|[_ [_ E']]]].
    + cbn in Q. congruence.
    + split; [exact R|]. split; [exact Ch|]. assert (q = p) by congruence. subst q. exists po'. rewrite upd_eq.
      split; [reflexivity|]. split; [exact Pp|]. apply Lp. right; auto.
    + destruct (B _ _ _ _ E' Q) as [Rx [Cx [px [Vx [Px Lx]]]]]. split; [exact Rx|]. split; [exact Cx|].
      destruct (at_dec (owner k) (owner k1) (i_id p) (i_id q)) as [[E1 E2]|N1].
      * exists po'. rewrite E1, E2, upd_eq. split; [reflexivity|]. split; [exact Pp|]. apply Lp. left. rewrite E1, E2, Vp in Vx. injection Vx as <-. exact Lx.
      * exists px. rewrite upd_neq by exact N1. rewrite upd_neq by (intros [F1 F2]; rewrite F1, F2 in Vx; congruence). auto.
  - intros k1 n1 x k' c E L.
    assert (Old : forall n0 y, V n0 n1 = Some y -> n0 = k1 -> clist (o_item y) k' c ->
      c = mkItem (i_id c) 0 None None /\ owner k' = k1 /\ exists o1 p1, upd (upd V k (o_name o) o) (owner k) (i_id p) po' k' (i_id c) = Some o1 /\ i_parent (o_item o1) = Some p1 /\ i_id p1 = n1).
    { intros n0 y Vy -> Ly. destruct (C _ _ _ _ _ Vy Ly) as [Ec [Ow [o1 [p1 [V1 [P1 N1]]]]]]. split; [exact Ec|]. split; [exact Ow|]. exists o1, p1.
      rewrite upd_neq by (intros [F1 F2]; rewrite F1, F2, Vp in V1; congruence).
      rewrite upd_neq by (intros [F1 F2]; rewrite F1, F2 in V1; congruence). auto. }
    destruct (Z _ _ _ E) as [[-> [-> ->]]|[[-> [-> ->]]|[_ [_ E']]]].
    + apply Lp in L. destruct L as [L|[-> ->]]; [exact (Old _ _ Vp eq_refl L)|].
      split; [reflexivity|]. split; [reflexivity|]. exists o, p. cbn [i_id].
      rewrite upd_neq by (intros [F1 F2]; apply Ne; auto). rewrite upd_eq. auto.
    + exfalso. exact (clist_none _ _ _ Ch L).
    + exact (Old _ _ E' eq_refl L).
  - intros k1 n1 x E. destruct (Z _ _ _ E) as [[-> [-> ->]]|[[-> [-> ->]]|[_ [_ E']]]]; [|intros m Em; congruence|eauto].
    intros m Em. exact (csorted_put _ _ _ (D _ _ _ Vp) m Em).
Qed.

Lemma ti_deleted V V' k n o : ti V -> V k n = Some o -> deleted owner V V' k n o -> ti V'.
Proof.
  intros T Vo H. pose proof T as [A B C D]. unfold deleted in H. destruct (i_parent (o_item o)) as [p|] eqn:P.
  - (* a child *)
    destruct H as [po [Vp H]]. destruct (B _ _ _ _ Vo P) as [R [Ch [po0 [Vp0 [Pp Lp]]]]].
    assert (po0 = po) by congruence. subst po0.
    assert (M : forall k' n', mem (children_of o) k' n' = false) by (intros; unfold children_of; rewrite Ch; reflexivity).
    assert (W : without_parent (o_item o) = mkItem n 0 None None).
    { pose proof (A _ _ _ Vo) as En. destruct o as [[n0 r pp cc] sp st]. unfold o_rev, o_name in *. cbn in *. subst. reflexivity. }
    set (po' := with_item _ _) in H.
    assert (Lp' : forall k' c, clist (o_item po') k' c <-> clist (o_item po) k' c /\ ~ (k' = k /\ c = mkItem n 0 None None)).
    { intros k' c. rewrite <- W, <- (clist_remove _ _ _ _ _ (D _ _ _ Vp)). reflexivity. }
    assert (Z : forall k1 n1 x, V' k1 n1 = Some x ->
      ~ (k1 = k /\ n1 = n) /\ ((k1 = owner k /\ n1 = i_id p /\ x = po') \/ (~ (k1 = owner k /\ n1 = i_id p) /\ V k1 n1 = Some x))).
    { intros k1 n1 x. rewrite H, M, orb_false_r. destruct (Nat.eqb_spec k1 k), (Nat.eqb_spec n1 n); cbn [andb]; try discriminate;
        (destruct (Nat.eqb_spec k1 (owner k)), (Nat.eqb_spec n1 (i_id p)); cbn [andb]; intros E; (split; [tauto|]); first [left; injection E as <-; auto; fail|right; split; [tauto|exact E]]). }
    assert (U : forall k1 n1, ~ (k1 = k /\ n1 = n) -> ~ (k1 = owner k /\ n1 = i_id p) -> V' k1 n1 = V k1 n1).
    { intros k1 n1 N1 N2. rewrite H, M, orb_false_r. destruct (Nat.eqb_spec k1 k), (Nat.eqb_spec n1 n), (Nat.eqb_spec k1 (owner k)), (Nat.eqb_spec n1 (i_id p)); cbn [andb]; tauto. }
    assert (Np : ~ (owner k = k /\ i_id p = n)) by (intros [E1 E2]; rewrite E1, E2 in Vp; congruence).
    assert (Up : V' (owner k) (i_id p) = Some po').
    { rewrite H, M, orb_false_r, !Nat.eqb_refl. destruct (Nat.eqb_spec (owner k) k), (Nat.eqb_spec (i_id p) n); cbn [andb]; tauto. }
    constructor.
    + intros k1 n1 x E. destruct (Z _ _ _ E) as [_ [[-> [-> ->]]|[_ E']]]; [exact (A _ _ _ Vp)|eauto].
    + intros k1 n1 x q E Q. destruct (Z _ _ _ E) as [N1 [[-> [-> ->]]|[_ E']]]; [cbn in Q; congruence|].
      destruct (B _ _ _ _ E' Q) as [Rx [Cx [px [Vx [Px Lx]]]]]. split; [exact Rx|]. split; [exact Cx|].
      destruct (at_dec (owner k) (owner k1) (i_id p) (i_id q)) as [[E1 E2]|N2].
      * exists po'. rewrite E1, E2. split; [exact Up|]. split; [exact Pp|]. rewrite E1, E2, Vp in Vx. injection Vx as <-. apply Lp'. split; [exact Lx|].
        intros [-> [= ->]]. tauto.
      * exists px. rewrite U; auto. intros [F1 F2]. rewrite F1, F2, Vo in Vx. congruence.
    + intros k1 n1 x k' c E L.
      assert (Old : forall y, V k1 n1 = Some y -> clist (o_item y) k' c -> ~ (k' = k /\ i_id c = n) ->
        c = mkItem (i_id c) 0 None None /\ owner k' = k1 /\ exists o1 p1, V' k' (i_id c) = Some o1 /\ i_parent (o_item o1) = Some p1 /\ i_id p1 = n1).
      { intros y Vy Ly Nc. destruct (C _ _ _ _ _ Vy Ly) as [Ec [Ow [o1 [p1 [V1 [P1 N1]]]]]]. split; [exact Ec|]. split; [exact Ow|]. exists o1, p1.
        rewrite U; auto. intros [F1 F2]. rewrite F1, F2, Vp in V1. congruence. }
      destruct (Z _ _ _ E) as [N1 [[-> [-> ->]]|[Nk E']]].
      * apply Lp' in L. destruct L as [L Nl]. apply (Old _ Vp L). intros [F1 F2]. apply Nl. split; [exact F1|].
        destruct (C _ _ _ _ _ Vp L) as [Ec _]. rewrite Ec, F2. reflexivity.
      * apply (Old _ E' L). intros [F1 F2]. subst k'. destruct (C _ _ _ _ _ E' L) as [_ [Ow [o1 [p1 [V1 [P1 N2]]]]]]. rewrite F2, Vo in V1. injection V1 as <-.
        apply Nk. split; [auto|]. congruence.
    + intros k1 n1 x E. destruct (Z _ _ _ E) as [_ [[-> [-> ->]]|[_ E']]]; [|eauto].
      intros m Em. exact (csorted_remove _ _ _ (D _ _ _ Vp) m Em).
  - (* an object without owner *)
    assert (Z : forall k1 n1 x, V' k1 n1 = Some x -> ~ (k1 = k /\ n1 = n) /\ ~ (exists c, clist (o_item o) k1 c /\ i_id c = n1) /\ V k1 n1 = Some x).
    { intros k1 n1 x. rewrite H. pose proof (mem_clist o k1 n1) as Mc. destruct (mem (children_of o) k1 n1); [rewrite orb_true_r; discriminate|].
      rewrite orb_false_r. destruct (Nat.eqb_spec k1 k), (Nat.eqb_spec n1 n); cbn [andb]; try discriminate; intros E; (split; [tauto|split; [|exact E]]); intros X; apply Mc in X; discriminate. }
    assert (U : forall k1 n1, ~ (k1 = k /\ n1 = n) -> ~ (exists c, clist (o_item o) k1 c /\ i_id c = n1) -> V' k1 n1 = V k1 n1).
    { intros k1 n1 N1 N2. rewrite H. pose proof (mem_clist o k1 n1) as Mc. destruct (mem (children_of o) k1 n1); [exfalso; apply N2, Mc; reflexivity|].
      rewrite orb_false_r. destruct (Nat.eqb_spec k1 k), (Nat.eqb_spec n1 n); cbn [andb]; tauto. }
    constructor.
    + intros k1 n1 x E. destruct (Z _ _ _ E) as [_ [_ E']]. eauto.
    + intros k1 n1 x q E Q. destruct (Z _ _ _ E) as [N1 [N2 E']]. destruct (B _ _ _ _ E' Q) as [Rx [Cx [px [Vx [Px Lx]]]]]. split; [exact Rx|]. split; [exact Cx|].
      exists px. rewrite U; [auto| |].
      * intros [F1 F2]. rewrite F1, F2, Vo in Vx. injection Vx as <-. apply N2. eexists. split; [exact Lx|reflexivity].
      * intros [c [L Ec]]. destruct (C _ _ _ _ _ Vo L) as [_ [_ [o1 [p1 [V1 [P1 _]]]]]]. rewrite Ec, Vx in V1. congruence.
    + intros k1 n1 x k' c E L. destruct (Z _ _ _ E) as [N1 [N2 E']]. destruct (C _ _ _ _ _ E' L) as [Ec [Ow [o1 [p1 [V1 [P1 Nn]]]]]].
      split; [exact Ec|]. split; [exact Ow|]. exists o1, p1. rewrite U; [auto| |].
      * intros [F1 F2]. rewrite F1, F2, Vo in V1. congruence.
      * intros [c' [L' E'']]. destruct (C _ _ _ _ _ Vo L') as [_ [Ow' [o2 [p2 [V2 [P2 Nn2]]]]]]. rewrite E'', V1 in V2. apply N1. split; [congruence|]. congruence.
    + intros k1 n1 x E. destruct (Z _ _ _ E) as [_ [_ E']]. eauto.
Qed.

Lemma clist_rev i r k c : clist (with_rev i r) k c <-> clist i k c.
Proof. reflexivity. Qed.
Lemma ti_op s a s' r : good s -> ti (visible s) -> exec (prog_of owner a) s = Some (s', r) -> tidy owner s a r -> good s' /\ ti (visible s').
Proof.
  intros G T X [NE Ok]. unfold ok_reply in NE.
  assert (Up : forall k o, new_value s a = Some (k, o) -> i_parent (o_item o) = None ->
     match visible s k (o_name o) with Some o1 => o_item o1 = o_item o | None => i_children (o_item o) = None end -> good s' /\ ti (visible s')).
  { intros k o N P M. destruct (update_effect owner s a k o s' r G X NE N) as [G' [o' [St V']]]. split; [exact G'|].
    eapply ti_ext; [exact V'|]. pose proof (stored_name _ _ _ St) as Nm. rewrite <- Nm. rewrite <- Nm in M, St.
    destruct (visible s k (o_name o')) as [o1|] eqn:V.
    - destruct St as [_ Eo]. apply ti_upd; [exact T| | |].
      + rewrite Eo. exact P.
      + rewrite Eo. cbn. rewrite <- M. exact (ti_sorted _ T _ _ _ V).
      + rewrite V. split; [rewrite M; exact P|]. intros k' c. rewrite Eo, M. reflexivity.
    - cbn in St. subst o'. apply ti_upd; [exact T|exact P|intros m Em; congruence|]. rewrite V. intros k' c. apply clist_none. exact M. }
  destruct a as [k o|k i|k i spec|k n spec|k i status|k].
  - destruct Ok as [N [Ch Pa]]. destruct (apply_effect owner s k o s' r G X NE) as [G' [o' [St V']]]. split; [exact G'|].
    rewrite N in St. cbn in St. subst o'. destruct (i_parent (o_item o)) as [p|] eqn:P.
    + destruct V' as [po [Vp V']]. destruct Pa as [R [po0 [Vp0 Pp]]].
      rewrite upd_neq in Vp by (intros [F1 F2]; rewrite F1, F2 in Vp0; congruence).
      assert (po0 = po) by congruence. subst po0. eapply ti_ext; [exact V'|]. apply ti_child; auto.
    + eapply ti_ext; [exact V'|]. apply ti_upd; [exact T|exact P|intros m Em; congruence|]. rewrite N. intros k' c. apply clist_none. exact Ch.
  - destruct (delete_effect owner s k i s' r G X NE) as [G' V']. split; [exact G'|].
    destruct (visible s k (i_id i)) as [o|] eqn:V; [eapply ti_deleted; eauto|eapply ti_ext; eauto].
  - destruct Ok as [P M]. eapply Up; [reflexivity|exact P|exact M].
  - destruct (visible s k n) as [o1|] eqn:V.
    + eapply Up; [cbn; rewrite V; reflexivity|exact Ok|]. change (o_name (mkObj (o_item o1) spec (o_status o1))) with (o_name o1).
      rewrite (visible_name s k n o1 G V), V. reflexivity.
    + eapply Up; [cbn; rewrite V; reflexivity|reflexivity|]. change (o_name (mkObj (mkItem n 0 None None) spec 0)) with n. rewrite V. reflexivity.
  - destruct Ok as [P M]. eapply Up; [reflexivity|exact P|exact M].
  - destruct (list_effect owner s k s' r G X) as [G' V']. split; [exact G'|]. eapply ti_ext; eauto.
Qed.
Lemma lives_tidy s s' : lives owner (tidy owner) s s' -> good s -> ti (visible s) -> good s' /\ ti (visible s').
Proof.
  induction 1 as [s|s a s1 r s2 X Ok _ IH|s h k v d x q s2 E _ IH|s s2 _ IH]; intros G T.
  - auto.
  - destruct (ti_op s a s1 r G T X Ok) as [G1 T1]. auto.
  - pose proof (good_quiet s h _ v q G E) as G1. cbn [t_kind t_data] in G1. apply IH; [exact G1|]. eapply ti_ext; [|exact T]. intros. apply visible_same; auto.
  - pose proof (good_restart _ s G eq_refl) as G1. apply IH; [exact G1|]. eapply ti_ext; [|exact T]. intros. apply visible_same; auto.
Qed.
Lemma ti0 : ti (visible (c_sys mach0)).
Proof. constructor; intros; discriminate. Qed.
End Tidy.
