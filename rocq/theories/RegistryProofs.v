(** Proofs about the index of packages. *)
From Coq Require Import ZArith List Bool Lia Sorting.Sorted Permutation.
Import ListNotations.
From Verif Require Import Base PackageModel RegistryModel RegistrySpec.
Open Scope Z_scope.

(** ** Text *)

Lemma has_In c s : has c s = true <-> In c s.
Proof.
  unfold has. rewrite existsb_exists. split.
  - intros (x & H & E). apply Z.eqb_eq in E. now subst.
  - intros H. exists c. split; auto. apply Z.eqb_refl.
Qed.
Lemma has_not c s : has c s = false <-> ~ In c s.
Proof. rewrite <- has_In. destruct (has c s); split; congruence. Qed.
Lemma same_eq a b : same a b = true <-> a = b.
Proof. unfold same. destruct (text_eq a b); split; congruence. Qed.
Lemma name_ok_plain s : name_ok s = true <-> plain s.
Proof. unfold name_ok, plain. rewrite andb_true_iff, !negb_true_iff, !has_not. tauto. Qed.
Lemma tag_ok_iff s : tag_ok s = true <-> (forall c, In c s -> c < 128) /\ ~ In 47 s.
Proof.
  unfold tag_ok. rewrite andb_true_iff, negb_true_iff, has_not, forallb_forall.
  split; intros [A B]; split; auto; intros c H; [apply Z.ltb_lt | apply Z.ltb_lt]; auto.
Qed.

Lemma split_cons c x s : split c (x :: s) = if x =? c then [] :: split c s else match split c s with h :: r => (x :: h) :: r | [] => [] end.
Proof. unfold split. cbn. destruct (split_on c s). destruct (x =? c); reflexivity. Qed.
Lemma split_not_nil c s : split c s <> [].
Proof. unfold split. destruct (split_on c s). discriminate. Qed.
Lemma split_sep c a b : split c (a ++ c :: b) = split c a ++ split c b.
Proof.
  induction a as [|x a IH]; cbn [app].
  - rewrite split_cons, Z.eqb_refl. reflexivity.
  - rewrite !split_cons, IH. destruct (x =? c); [reflexivity |].
    pose proof (split_not_nil c a). destruct (split c a); [congruence | reflexivity].
Qed.
Lemma split_one c s : ~ In c s -> split c s = [s].
Proof.
  induction s as [|x s IH]; intros H; [reflexivity |]. rewrite split_cons.
  destruct (x =? c) eqn:E; [apply Z.eqb_eq in E; subst; exfalso; apply H; now left |].
  rewrite IH; [reflexivity | intros X; apply H; now right].
Qed.
Lemma join_split c s : join c (split c s) = s.
Proof.
  induction s as [|x s IH]; [reflexivity |]. rewrite split_cons. pose proof (split_not_nil c s) as N.
  destruct (x =? c) eqn:E.
  - apply Z.eqb_eq in E. subst. destruct (split c s) as [|h r] eqn:Es; [congruence |]. cbn [join app] in *. now rewrite IH.
  - destruct (split c s) as [|h r]; [congruence |]. rewrite <- IH. destruct r; reflexivity.
Qed.
Lemma split_parts c s : forall x, In x (split c s) -> ~ In c x.
Proof.
  induction s as [|y s IH]; intros x H; [destruct H as [<-|[]]; auto |]. rewrite split_cons in H.
  destruct (y =? c) eqn:E.
  - destruct H as [<-|H]; auto.
  - pose proof (split_not_nil c s). destruct (split c s) as [|h r]; [congruence |]. apply Z.eqb_neq in E.
    destruct H as [<-|H]; [| apply IH; now right]. intros [X|X]; [congruence |]. eapply IH; [now left | exact X].
Qed.
Lemma parts_in c s : forall x y, In x (split c s) -> In y x -> In y s.
Proof.
  induction s as [|z s IH]; intros x y H Hy; [destruct H as [<-|[]]; auto |]. rewrite split_cons in H.
  destruct (z =? c).
  - destruct H as [<-|H]; [contradiction | right; eauto].
  - pose proof (split_not_nil c s). destruct (split c s) as [|h r]; [congruence |].
    destruct H as [<-|H]; [| right; eapply IH; eauto; now right]. destruct Hy as [<-|Hy]; [now left |]. right.
    eapply IH; [now left | exact Hy].
Qed.

Lemma ends_with_iff c s : ends_with c s = true <-> exists s0, s = s0 ++ [c].
Proof.
  unfold ends_with. split.
  - destruct (rev s) as [|x r] eqn:E; [discriminate |]. intros H. apply Z.eqb_eq in H. subst x.
    exists (rev r). rewrite <- (rev_involutive s), E. reflexivity.
  - intros (s0 & ->). rewrite rev_app_distr. cbn. apply Z.eqb_refl.
Qed.

(** ** Reading what was printed *)
Section Read.
Variable url : text -> option text.
Variable semver : text -> bool.

Lemma parse_ver_print v : fine_version semver (Some v) -> parse_ver semver (print_ver v) = Some v.
Proof.
  unfold parse_ver. destruct v as [s|s]; cbn.
  - now intros ->.
  - intros (E & P & A). rewrite E. now rewrite (proj2 (tag_ok_iff s) (conj A (proj1 P))).
Qed.
Lemma ver_plain v : semver_ok semver -> fine_version semver (Some v) -> plain (print_ver v).
Proof. intros S. destruct v as [s|s]; cbn; [intros H; apply S in H; split; tauto | tauto]. Qed.

Definition tail_of (o : option ver) : text := match o with Some v => 58 :: print_ver v | None => [] end.

Lemma tail_slash n o : semver_ok semver -> plain n -> fine_version semver o -> ~ In 47 (n ++ tail_of o).
Proof.
  intros S [P _] F H. apply in_app_or in H. destruct H as [H|H]; [auto |]. destruct o as [v|]; [| contradiction].
  cbn in H. destruct H as [H|H]; [discriminate |]. exact (proj1 (ver_plain v S F) H).
Qed.

Lemma parse_parts needed s n o rest : semver_ok semver -> plain n -> fine_version semver o ->
  (needed = true -> o <> None) -> rev (split 47 s) = (n ++ tail_of o) :: rest ->
  parse_id url semver needed s = finish url n o rest.
Proof.
  intros S P F N E. unfold parse_id. rewrite E. destruct o as [v|]; cbn [tail_of].
  - rewrite split_sep, (split_one 58 n (proj2 P)), (split_one 58 _ (proj2 (ver_plain v S F))). cbn [app].
    now rewrite (parse_ver_print v F).
  - rewrite app_nil_r, (split_one 58 n (proj2 P)). destruct needed; auto. now specialize (N eq_refl).
Qed.

Lemma group_of_fine o rest : (forall g, o = Some g -> plain g) ->
  group_of ((match o with Some g => g | None => fluvio end) :: rest) = Some (match o with Some g => if same g fluvio then None else Some g | None => None end).
Proof.
  intros H. destruct o as [g|]; cbn [group_of].
  - destruct (same g fluvio); auto. now rewrite (proj2 (name_ok_plain g) (H g eq_refl)).
  - now rewrite (proj2 (same_eq fluvio fluvio) eq_refl).
Qed.

Lemma fluvio_plain : plain fluvio.
Proof. split; intros H; repeat (destruct H as [H|H]; [discriminate |]); contradiction. Qed.
Lemma group_plain i : (forall g, d_group i = Some g -> plain g) -> plain (group_in i).
Proof. unfold group_in. destruct (d_group i); auto. intros _. apply fluvio_plain. Qed.

Lemma registry_back r : url r = Some r -> one_slash r -> forall r0, r = r0 ++ [47] -> registry_of url (split 47 r0) = Some r.
Proof.
  intros U (r1 & E1 & N) r0 E. rewrite E1 in E. apply app_inj_tail in E. destruct E as [<- _].
  unfold registry_of. pose proof (split_not_nil 47 r1) as Hn. pose proof (join_split 47 r1) as J.
  destruct (split 47 r1); [congruence |]. rewrite J. destruct (ends_with 47 r1) eqn:Ee.
  - apply ends_with_iff in Ee. destruct Ee as (s0 & Es). exfalso. exact (N _ Es).
  - now rewrite <- E1.
Qed.

Lemma reads needed i : semver_ok semver -> fine_id url semver i -> (needed = true -> d_version i <> None) ->
  parse_id url semver needed (print_id i) = Some (normal i).
Proof.
  intros S (Fr & Fg & Fn & Fv) N. pose proof (group_plain i Fg) as Pg.
  pose proof (tail_slash (d_name i) (d_version i) S Fn Fv) as Nt.
  assert (G : forall rest, group_of (group_in i :: rest) = Some (d_group (normal i))).
  { intros rest. exact (group_of_fine (d_group i) rest Fg). }
  assert (Ep : print_id i = (match d_registry i with Some r => r | None => [] end) ++ group_in i ++ 47 :: (d_name i ++ tail_of (d_version i))) by reflexivity.
  rewrite Ep. clear Ep. destruct (d_registry i) as [r|] eqn:Er.
  - destruct Fr as [U O]. pose proof O as O'. destruct O' as (r0 & E & _).
    rewrite (parse_parts needed _ (d_name i) (d_version i) (group_in i :: rev (split 47 r0)) S Fn Fv N).
    + unfold finish. rewrite (proj2 (name_ok_plain _) Fn), G. cbn [tl]. rewrite rev_involutive.
      rewrite (registry_back r U O r0 E). unfold normal. cbn. now rewrite Er.
    + rewrite E. rewrite <- app_assoc. change (([47] ++ group_in i ++ 47 :: d_name i ++ tail_of (d_version i))) with (47 :: (group_in i ++ 47 :: (d_name i ++ tail_of (d_version i)))).
      rewrite !split_sep, (split_one 47 _ (proj1 Pg)), (split_one 47 _ Nt).
      rewrite !rev_app_distr. reflexivity.
  - rewrite (parse_parts needed _ (d_name i) (d_version i) [group_in i] S Fn Fv N).
    + unfold finish. rewrite (proj2 (name_ok_plain _) Fn), G. unfold normal. cbn. now rewrite Er.
    + change ([] ++ group_in i ++ 47 :: d_name i ++ tail_of (d_version i)) with (group_in i ++ 47 :: (d_name i ++ tail_of (d_version i))).
      rewrite split_sep, (split_one 47 _ (proj1 Pg)), (split_one 47 _ Nt). reflexivity.
Qed.

Lemma parsed needed s i : url_ok url -> parse_id url semver needed s = Some i ->
  (forall r, d_registry i = Some r -> url r = Some r /\ exists r0, r = r0 ++ [47]) /\
  (forall g, d_group i = Some g -> plain g /\ g <> fluvio) /\ plain (d_name i) /\ fine_version semver (d_version i) /\
  (needed = true -> d_version i <> None).
Proof.
  intros U H. unfold parse_id in H. destruct (rev (split 47 s)) as [|nv rest] eqn:E; [discriminate |].
  assert (Hnv : In nv (split 47 s)). { apply in_rev. rewrite E. now left. }
  assert (F : forall n o, finish url n o rest = Some i -> fine_version semver o -> (needed = true -> o <> None) ->
    (forall r, d_registry i = Some r -> url r = Some r /\ exists r0, r = r0 ++ [47]) /\
    (forall g, d_group i = Some g -> plain g /\ g <> fluvio) /\ plain (d_name i) /\ fine_version semver (d_version i) /\
    (needed = true -> d_version i <> None)).
  { intros n o Hf Fo No. unfold finish in Hf. destruct (name_ok n) eqn:En; [| discriminate].
    destruct (group_of rest) as [g|] eqn:Eg; [| discriminate]. injection Hf as <-. cbn. split; [| split; [| split; [| split]]].
    - intros r Hr. unfold registry_of in Hr. destruct (rev (tl rest)) as [|a b]; [discriminate |].
      set (q := join 47 (a :: b)) in *. apply U in Hr. destruct Hr as [U1 U2]. split; auto. apply U2.
      destruct (ends_with 47 q) eqn:Ee; [now apply ends_with_iff | now exists q].
    - intros x ->. unfold group_of in Eg. destruct rest as [|y rest']; [discriminate |].
      destruct (same y fluvio) eqn:Es; [discriminate |]. destruct (name_ok y) eqn:Ey; [| discriminate]. injection Eg as <-.
      split; [now apply name_ok_plain |]. intros X. apply same_eq in X. congruence.
    - now apply name_ok_plain.
    - exact Fo.
    - exact No. }
  destruct (split 58 nv) as [|n [|v [|]]] eqn:E2; try discriminate.
  - destruct needed; [discriminate |]. apply (F n None H Logic.I). discriminate.
  - destruct (parse_ver semver v) as [w|] eqn:Ev; [| discriminate]. apply (F n (Some w) H); [| discriminate].
    unfold parse_ver in Ev. destruct (semver v) eqn:Es; [injection Ev as <-; exact Es |].
    destruct (tag_ok v) eqn:Et; [| discriminate]. injection Ev as <-. cbn. apply tag_ok_iff in Et.
    split; auto. split; [| tauto]. split; [tauto |]. apply (split_parts 58 nv). rewrite E2. right. now left.
Qed.

Lemma normal_id i : (forall g, d_group i = Some g -> g <> fluvio) -> normal i = i.
Proof.
  intros H. destruct i as [r [g|] n v]; unfold normal; cbn; auto.
  destruct (same g fluvio) eqn:E; auto. apply same_eq in E. exfalso. exact (H g eq_refl E).
Qed.

Lemma both s i : parse_id url semver true s = Some i -> parse_id url semver false s = Some i.
Proof.
  unfold parse_id. destruct (rev (split 47 s)) as [|nv rest]; auto. destruct (split 58 nv) as [|n [|v [|]]]; auto. discriminate.
Qed.

Lemma pretty_reads i : semver_ok semver -> fine_id url semver i -> parse_id url semver false (pretty i) = Some (normal (without_version i)).
Proof.
  intros S (Fr & Fg & Fn & Fv).
  assert (Fj : fine_id url semver (without_version i)) by (unfold fine_id; cbn; tauto).
  pose proof (reads false (without_version i) S Fj (fun E => ltac:(discriminate))) as R.
  unfold print_id in R. unfold pretty. unfold group_in in R. cbn [without_version d_registry d_group d_name d_version] in R.
  rewrite app_nil_r in R. unfold group_in. destruct (d_registry i) as [r|] eqn:Er; [| destruct (d_group i) as [g|] eqn:Eg].
  - rewrite <- app_assoc. rewrite <- app_assoc. exact R.
  - rewrite <- app_assoc. exact R.
  - cbn [app]. unfold parse_id. rewrite (split_one 47 _ (proj1 Fn)). cbn [rev app].
    rewrite (split_one 58 _ (proj2 Fn)). unfold finish. rewrite (proj2 (name_ok_plain _) Fn). cbn.
    unfold normal, without_version. cbn. now rewrite Er, Eg.
Qed.
End Read.

Lemma uid_tells i j :
  (exists r, registry_in i = r ++ [47]) -> (exists r, registry_in j = r ++ [47]) ->
  ~ In 47 (group_in i) -> ~ In 47 (group_in j) -> ~ In 47 (d_name i) -> ~ In 47 (d_name j) ->
  (uid i = uid j <-> same_package i j).
Proof.
  intros (a & Ea) (b & Eb) Gi Gj Ni Nj. unfold uid, same_package. split.
  - intros E. apply (f_equal (split 47)) in E. rewrite Ea, Eb, <- !app_assoc in E. cbn [app] in E.
    rewrite !split_sep, !(split_one 47 _ Gi), !(split_one 47 _ Gj), !(split_one 47 _ Ni), !(split_one 47 _ Nj) in E.
    rewrite !app_assoc in E. apply app_inj_tail in E. destruct E as [E En]. apply app_inj_tail in E. destruct E as [E Eg].
    apply (f_equal (join 47)) in E. rewrite !join_split in E. subst. rewrite Ea, Eb. auto.
  - intros (-> & -> & ->). reflexivity.
Qed.

(** ** Releases *)
Section Rel.
Context {V : Type} (le : V -> V -> bool) (T : total_order le).
Notation rel := (release V).
Notation lv := (l_version V).
Notation lt := (l_targets V).

Lemma le_refl a : le a a = true. Proof. destruct T as (H & _). destruct (H a a); auto. Qed.
Lemma veq_iff a b : veq V le a b = true <-> a = b.
Proof.
  unfold veq. rewrite andb_true_iff. destruct T as (H1 & H2 & H3). split; [intros []; auto | intros ->; split; apply le_refl].
Qed.

Definition leq (a b : rel) : Prop := le (lv a) (lv b) = true.
Lemma insert_perm r l : Permutation (insert V le r l) (r :: l).
Proof. induction l as [|x t IH]; cbn; auto. destruct (le _ _); auto. rewrite IH. apply perm_swap. Qed.
Lemma sort_perm l : Permutation (sort V le l) l.
Proof. induction l as [|x t IH]; cbn; auto. rewrite insert_perm. now apply perm_skip. Qed.
Lemma insert_sorted r l : StronglySorted leq l -> StronglySorted leq (insert V le r l).
Proof.
  destruct T as (H1 & H2 & H3). induction l as [|x t IH]; intros H; cbn; [repeat constructor |].
  apply StronglySorted_inv in H. destruct H as [Ht Hx]. destruct (le (lv r) (lv x)) eqn:E.
  - constructor; [constructor; auto |]. constructor; auto. eapply Forall_impl; [| exact Hx]. intros y Hy. unfold leq in *. eauto.
  - constructor; auto. assert (X : leq x r) by (unfold leq; destruct (H1 (lv r) (lv x)); congruence).
    eapply Permutation_Forall; [symmetry; apply insert_perm |]. constructor; auto.
Qed.
Lemma sort_sorted l : StronglySorted leq (sort V le l).
Proof. induction l as [|x t IH]; cbn; [constructor | now apply insert_sorted]. Qed.

Lemma add_to_none v t l : add_to V le v t l = None <-> ~ In v (map lv l).
Proof.
  induction l as [|r l IH]; cbn; [tauto |]. destruct (veq V le (lv r) v) eqn:E.
  - apply veq_iff in E. split; [discriminate | intros H; exfalso; apply H; now left].
  - destruct (add_to V le v t l) as [l'|]; cbn.
    + split; [discriminate |]. intros H. exfalso. assert (X : Some l' = None) by (apply IH; tauto). discriminate.
    + split; auto. intros _ [X|X]; [apply veq_iff in X; congruence | now apply (proj1 IH)].
Qed.
Lemma add_target_version t r : lv (add_target V t r) = lv r.
Proof. unfold add_target. now destruct (existsb _ _). Qed.
Lemma add_target_in t r x : In x (lt (add_target V t r)) <-> x = t \/ In x (lt r).
Proof.
  unfold add_target. destruct (existsb (Z.eqb t) (lt r)) eqn:E.
  - apply existsb_exists in E. destruct E as (y & Hy & Ey). apply Z.eqb_eq in Ey. subst y. split; [tauto | intros [->|H]; auto].
  - cbn. rewrite in_app_iff. cbn. split; [intros [H|[<-|[]]]; auto | intros [->|H]; auto].
Qed.
Definition offers (l : list rel) (v : V) (t : Z) : Prop := exists r, In r l /\ lv r = v /\ In t (lt r).

Lemma add_to_some v t : forall l l', add_to V le v t l = Some l' ->
  map lv l' = map lv l /\ forall v' t', offers l' v' t' <-> offers l v' t' \/ (v' = v /\ t' = t).
Proof.
  induction l as [|r l IH]; intros l' H; [discriminate |]. cbn in H. destruct (veq V le (lv r) v) eqn:E.
  - apply veq_iff in E. injection H as <-. cbn. rewrite add_target_version. split; auto. intros v' t'. split.
    + intros (q & [<-|Hq] & Ev & Ht).
      * apply add_target_in in Ht. rewrite add_target_version in Ev. destruct Ht as [->|Ht]; [right; split; congruence |].
        left. exists r. split; [now left |]. auto.
      * left. exists q. split; [now right |]. auto.
    + intros [(q & [<-|Hq] & Ev & Ht)|[-> ->]].
      * exists (add_target V t r). split; [now left |]. split; [now rewrite add_target_version |]. apply add_target_in. auto.
      * exists q. split; [now right |]. auto.
      * exists (add_target V t r). split; [now left |]. split; [now rewrite add_target_version |]. apply add_target_in. auto.
  - destruct (add_to V le v t l) as [l1|] eqn:E1; [| discriminate]. injection H as <-. destruct (IH l1 eq_refl) as [IH1 IH2].
    cbn. split; [now rewrite IH1 |]. intros v' t'. specialize (IH2 v' t'). split.
    + intros (q & [<-|Hq] & Ev & Ht); [left; exists r; split; [now left |]; auto |].
      assert (Q : offers l1 v' t') by (exists q; auto). apply IH2 in Q. destruct Q as [(p & Hp & R)|X]; [left; exists p; split; [now right |]; auto | auto].
    + intros [(q & [<-|Hq] & Ev & Ht)|X]; [exists r; split; [now left |]; auto | |].
      * assert (Q : offers l v' t') by (exists q; auto). destruct (proj2 IH2 (or_introl Q)) as (p & Hp & R). exists p. split; [now right |]. auto.
      * destruct (proj2 IH2 (or_intror X)) as (p & Hp & R). exists p. split; [now right |]. auto.
Qed.

Definition sorted (l : list rel) : Prop := StronglySorted leq l.
Lemma sorted_versions l l' : map lv l' = map lv l -> sorted l -> sorted l'.
Proof.
  revert l'. induction l as [|r l IH]; intros [|r' l'] E H; try discriminate; auto. cbn in E. injection E as E1 E2.
  apply StronglySorted_inv in H. destruct H as [H1 H2]. constructor; [now apply IH |].
  apply Forall_forall. intros x Hx. apply (in_map lv) in Hx. rewrite E2 in Hx. apply in_map_iff in Hx. destruct Hx as (y & Ey & Hy).
  rewrite Forall_forall in H2. specialize (H2 y Hy). unfold leq in *. congruence.
Qed.

Record kept (h : list (V * Z)) (l : list rel) : Prop := {
  k_sorted : sorted l;
  k_once : NoDup (map lv l);
  k_offers : forall v t, offers l v t <-> In (v, t) h;
  k_some : forall r, In r l -> lt r <> [] }.

Lemma add_to_targets v t : forall l l', add_to V le v t l = Some l' -> (forall r, In r l -> lt r <> []) -> forall r, In r l' -> lt r <> [].
Proof.
  induction l as [|r l IH]; intros l' H K q Hq; [discriminate |]. cbn in H. destruct (veq V le (lv r) v).
  - injection H as <-. destruct Hq as [<-|Hq]; [| apply K; now right]. intros E.
    pose proof (proj2 (add_target_in t r t) (or_introl eq_refl)) as X. rewrite E in X. contradiction.
  - destruct (add_to V le v t l) as [l1|]; [| discriminate]. injection H as <-.
    destruct Hq as [<-|Hq]; [apply K; now left |]. eapply (IH l1 eq_refl); auto. intros x Hx. apply K. now right.
Qed.

Lemma kept_add h l vt : kept h l -> kept (h ++ [vt]) (add_release V le l vt).
Proof.
  intros [K1 K2 K3 K4]. destruct vt as [v t]. unfold add_release. cbn [fst snd].
  destruct (add_to V le v t l) as [l'|] eqn:E.
  - pose proof (add_to_targets _ _ _ _ E K4) as K5. destruct (add_to_some _ _ _ _ E) as [E1 E2]. constructor.
    + now apply (sorted_versions l).
    + now rewrite E1.
    + intros v' t'. rewrite E2, in_app_iff, K3. cbn. split; (intros [H|H]; [now left |]); right.
      * destruct H as [-> ->]. now left.
      * destruct H as [H|[]]. injection H as -> ->. auto.
    + exact K5.
  - apply add_to_none in E. set (new := mkRel V v false [t]).
    pose proof (sort_perm (l ++ [new])) as P. constructor.
    + apply sort_sorted.
    + eapply Permutation_NoDup; [apply Permutation_map; symmetry; exact P |]. rewrite map_app. cbn.
      apply NoDup_rev in K2. rewrite <- (rev_involutive (map lv l ++ [v])). apply NoDup_rev. rewrite rev_app_distr. cbn.
      constructor; auto. intros X. apply E. now apply in_rev.
    + intros v' t'. rewrite in_app_iff, <- K3. cbn. split.
      * intros (r & Hr & Ev & Ht). apply (Permutation_in _ P) in Hr. apply in_app_or in Hr. destruct Hr as [Hr|[<-|[]]].
        -- left. exists r. auto.
        -- right. left. cbn in *. destruct Ht as [<-|[]]. now subst.
      * intros [(r & Hr & R)|[X|[]]].
        -- exists r. split; auto. apply (Permutation_in _ (Permutation_sym P)). apply in_or_app. auto.
        -- injection X as <- <-. exists new. split; [| cbn; auto]. apply (Permutation_in _ (Permutation_sym P)). apply in_or_app. right. now left.
    + intros r Hr. apply (Permutation_in _ P) in Hr. apply in_app_or in Hr. destruct Hr as [Hr|[<-|[]]]; [now apply K4 | discriminate].
Qed.

Lemma kept_published h : kept h (published V le h).
Proof.
  unfold published. induction h as [|vt h IH] using rev_ind.
  - constructor; [constructor | constructor | | intros r []]. intros v t. split; [intros (r & [] & _) | intros []].
  - rewrite fold_left_app. cbn. now apply kept_add.
Qed.

Lemma sorted_find (p : rel -> bool) l : sorted l ->
  match find p (rev l) with
  | Some r => In r l /\ p r = true /\ forall q, In q l -> p q = true -> le (lv q) (lv r) = true
  | None => forall q, In q l -> p q = false end.
Proof.
  induction l as [|x l IH]; intros H; cbn; [intros q [] |]. apply StronglySorted_inv in H. destruct H as [H1 H2]. specialize (IH H1).
  assert (F : forall a b : list rel, find p (a ++ b) = match find p a with Some r => Some r | None => find p b end).
  { induction a as [|y a IHa]; cbn; auto. intros b. destruct (p y); auto. }
  rewrite F. destruct (find p (rev l)) as [r|].
  - destruct IH as (I1 & I2 & I3). split; [now right |]. split; auto. intros q [<-|Hq] Pq; [| auto].
    rewrite Forall_forall in H2. exact (H2 r I1).
  - cbn. destruct (p x) eqn:E.
    + split; [now left |]. split; auto. intros q [<-|Hq] Pq; [apply le_refl |]. rewrite (IH q Hq) in Pq. discriminate.
    + intros q [<-|Hq]; auto.
Qed.
End Rel.
