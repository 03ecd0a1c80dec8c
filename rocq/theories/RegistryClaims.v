(** The claims about the index of packages. *)
From Coq Require Import ZArith List Bool Lia Sorting.Sorted Permutation.
Import ListNotations.
From Verif Require Import Base PackageModel RegistryModel RegistrySpec RegistryProofs.
Open Scope Z_scope.

(** ** Ids *)
Section Ids.
Variable url : text -> option text.
Variable semver : text -> bool.
Hypothesis Hu : url_ok url.
Hypothesis Hs : semver_ok semver.

Lemma read_back needed s i : parse_id url semver needed s = Some i ->
  (forall r, d_registry i = Some r -> one_slash r) -> parse_id url semver needed (print_id i) = Some i.
Proof.
  intros P O. destruct (parsed url semver _ _ _ Hu P) as (A & B & C & D & E).
  rewrite <- (normal_id i) at 2; [| intros g Hg; apply (B g Hg)].
  apply (reads url semver needed i Hs); auto. split; [| split; [intros g Hg; apply (B g Hg) | auto]].
  unfold fine_registry. destruct (d_registry i) as [r|] eqn:Er; auto. split; [apply (A r eq_refl) | auto].
Qed.
Lemma short needed n o : plain n -> fine_version semver o -> (needed = true -> o <> None) ->
  parse_id url semver needed (n ++ match o with Some v => 58 :: print_ver v | None => [] end) = Some (mkPid None None n o).
Proof.
  intros P F N. rewrite (parse_parts url semver needed _ n o [] Hs P F N).
  - unfold finish. now rewrite (proj2 (name_ok_plain n) P).
  - change (rev (split 47 (n ++ tail_of o)) = [n ++ tail_of o]). now rewrite (split_one 47 _ (tail_slash url semver n o Hs P F)).
Qed.
Lemma parsed_fine needed s i : parse_id url semver needed s = Some i ->
  (forall r, d_registry i = Some r -> url r = Some r /\ exists r0, r = r0 ++ [47]) /\
  (forall g, d_group i = Some g -> plain g /\ g <> fluvio) /\ plain (d_name i) /\ fine_version semver (d_version i).
Proof. intros P. destruct (parsed url semver _ _ _ Hu P) as (A & B & C & D & E). auto. Qed.
Lemma versioned s i : parse_id url semver true s = Some i <-> parse_id url semver false s = Some i /\ d_version i <> None.
Proof.
  split.
  - intros P. split; [now apply both |]. destruct (parsed url semver _ _ _ Hu P) as (A & B & C & D & E). auto.
  - intros [P N]. unfold parse_id in *. destruct (rev (split 47 s)) as [|nv rest]; auto. destruct (split 58 nv) as [|n [|v [|]]]; auto.
    exfalso. unfold finish in P. destruct (name_ok n); [| discriminate]. destruct (group_of rest); [| discriminate].
    injection P as <-. now apply N.
Qed.
Lemma default_slash : exists r, default_registry = r ++ [47].
Proof. exists (removelast default_registry). reflexivity. Qed.
Lemma unique n1 s1 i n2 s2 j : parse_id url semver n1 s1 = Some i -> parse_id url semver n2 s2 = Some j ->
  (uid i = uid j <-> same_package i j).
Proof.
  intros P Q. destruct (parsed url semver _ _ _ Hu P) as (A & B & C & _). destruct (parsed url semver _ _ _ Hu Q) as (A' & B' & C' & _).
  apply uid_tells; try (apply C); try (apply C').
  - unfold registry_in. destruct (d_registry i) eqn:E; [apply (A _ eq_refl) | apply default_slash].
  - unfold registry_in. destruct (d_registry j) eqn:E; [apply (A' _ eq_refl) | apply default_slash].
  - apply group_plain. intros g Hg. apply (B g Hg).
  - apply group_plain. intros g Hg. apply (B' g Hg).
Qed.
Lemma slash_in_name needed s i : parse_id url semver needed s = Some i -> forall x v, s = x ++ 58 :: v -> ~ In 58 v -> ~ In 47 v ->
  exists w, d_version i = Some w /\ print_ver w = v.
Proof.
  intros P x v -> N5 N4. unfold parse_id in P. destruct (rev (split 47 (x ++ 58 :: v))) as [|nv rest] eqn:E; [discriminate |].
  assert (X : exists n, nv = n ++ 58 :: v).
  { clear P. revert nv rest E. induction x as [|c x IH]; intros nv rest E; cbn [app] in E.
    - rewrite (split_one 47) in E; [| intros [H|H]; [discriminate | auto]]. injection E as <- _. now exists [].
    - rewrite split_cons in E. destruct (c =? 47).
      + cbn [rev] in E. destruct (rev (split 47 (x ++ 58 :: v))) as [|y ys] eqn:Ey.
        * apply (f_equal (@rev text)) in Ey. rewrite rev_involutive in Ey. destruct (split_not_nil _ _ Ey).
        * injection E as <- _. exact (IH y ys eq_refl).
      + destruct (split 47 (x ++ 58 :: v)) as [|h r] eqn:Es; [destruct (split_not_nil _ _ Es) |]. cbn [rev] in *.
        destruct (rev r) as [|y ys] eqn:Er; cbn [app] in *.
        * injection E as <- _. destruct (IH h [] eq_refl) as (n & ->). now exists (c :: n).
        * injection E as <- _. exact (IH y (ys ++ [h]) eq_refl). }
  destruct X as (n & ->). rewrite split_sep, (split_one 58 v N5) in P.
  destruct (split 58 n) as [|a [|b l]] eqn:En; [destruct (split_not_nil _ _ En) | |].
  - cbn [app] in P. destruct (parse_ver semver v) as [w|] eqn:Ev; [| discriminate]. exists w. split.
    + unfold finish in P. destruct (name_ok a); [| discriminate]. destruct (group_of rest); [| discriminate]. now injection P as <-.
    + unfold parse_ver in Ev. destruct (semver v); [now injection Ev as <- |]. destruct (tag_ok v); [now injection Ev as <- | discriminate].
  - cbn [app] in P. destruct (l ++ [v]) eqn:El; [destruct l; discriminate | discriminate].
Qed.

(** a registry that is not a URL *)
Lemma ignored r n o : url (r ++ [47]) = None -> ~ (exists r0, r = r0 ++ [47]) -> plain n -> fine_version semver o ->
  forall g, plain g -> g <> fluvio ->
  parse_id url semver false (r ++ [47] ++ g ++ [47] ++ n ++ match o with Some v => 58 :: print_ver v | None => [] end) = Some (mkPid None (Some g) n o).
Proof.
  intros U E P F g Pg Ng. change (parse_id url semver false (r ++ 47 :: (g ++ 47 :: (n ++ tail_of o))) = Some (mkPid None (Some g) n o)).
  rewrite (parse_parts url semver false _ n o (g :: rev (split 47 r)) Hs P F ltac:(discriminate)).
  - unfold finish. rewrite (proj2 (name_ok_plain n) P). cbn [group_of tl].
    destruct (same g fluvio) eqn:Es; [apply same_eq in Es; contradiction |].
    rewrite (proj2 (name_ok_plain g) Pg), rev_involutive. unfold registry_of. pose proof (split_not_nil 47 r). pose proof (join_split 47 r) as J.
    destruct (split 47 r); [congruence |]. rewrite J. destruct (ends_with 47 r) eqn:Ee; [apply ends_with_iff in Ee; contradiction |]. now rewrite U.
  - rewrite !split_sep, (split_one 47 _ (proj1 Pg)), (split_one 47 _ (tail_slash url semver n o Hs P F)).
    rewrite !rev_app_distr. reflexivity.
Qed.
End Ids.

(** ** An example of URLs and versions *)
Definition https : text := [104; 116; 116; 112; 115; 58; 47; 47].
Definition some_url (s : text) : option text := if same (firstn 8 s) https then Some s else None.
Definition some_semver (s : text) : bool := forallb (fun c => (c =? 46) || ((48 <=? c) && (c <=? 57))) s && has 46 s.
Lemma some_url_ok : url_ok some_url.
Proof.
  intros s r. unfold some_url. destruct (same (firstn 8 s) https) eqn:E; [| discriminate]. intros H. injection H as <-. now rewrite E.
Qed.
Lemma some_semver_ok : semver_ok some_semver.
Proof.
  intros s H. unfold some_semver in H. apply andb_true_iff in H. destruct H as [H _]. rewrite forallb_forall in H.
  assert (A : forall c, In c s -> c = 46 \/ 48 <= c <= 57).
  { intros c Hc. specialize (H c Hc). apply orb_true_iff in H. rewrite andb_true_iff, !Z.leb_le, Z.eqb_eq in H. exact H. }
  repeat split; intros c; try (intros Hc; specialize (A _ Hc)); try lia; apply A in c; lia.
Qed.

Definition an_id : text := https ++ [120; 47; 97; 47; 98; 58; 49; 46; 50].          (* https://x/a/b:1.2 *)
Definition parsed_id : pid := mkPid (Some (https ++ [120; 47])) (Some [97]) [98] (Some (Semver [49; 46; 50])).

(** ** What is not so *)
Lemma registry_refuted : ~ (forall url semver, url_ok url -> semver_ok semver -> forall s i, parse_id url semver false s = Some i ->
  forall r, (exists q, s = r ++ [47] ++ q) -> In 47 r -> d_registry i <> None).
Proof.
  intros C. refine (C some_url some_semver some_url_ok some_semver_ok [120; 47; 121; 47; 97; 47; 98] (mkPid None (Some [97]) [98] None) eq_refl [120; 47; 121] _ _ eq_refl).
  - exists [97; 47; 98]. reflexivity.
  - right. now left.
Qed.
(** https://x///a/b *)
Lemma slashes_refuted : ~ (forall url semver, url_ok url -> semver_ok semver -> forall s i, parse_id url semver false s = Some i ->
  parse_id url semver false (print_id i) = Some i).
Proof.
  intros C. pose (i := mkPid (Some (https ++ [120; 47; 47])) (Some [97]) [98] None).
  pose proof (C some_url some_semver some_url_ok some_semver_ok (https ++ [120; 47; 47; 47; 97; 47; 98]) i eq_refl) as H. vm_compute in H. discriminate.
Qed.
(** the tag "a:b" *)
Lemma tag_refuted : ~ (forall semver v w, semver_ok semver -> parse_ver semver v = Some w -> forall url, url_ok url ->
  parse_id url semver true (print_id (mkPid None None [97] (Some w))) <> None).
Proof. intros C. exact (C some_semver [97; 58; 98] (Tag [97; 58; 98]) some_semver_ok eq_refl some_url some_url_ok eq_refl). Qed.
Lemma empty_refuted : ~ (forall url semver, url_ok url -> semver_ok semver -> forall s i, parse_id url semver false s = Some i -> d_name i <> []).
Proof. intros C. exact (C some_url some_semver some_url_ok some_semver_ok [97; 47] (mkPid None (Some [97]) [] None) eq_refl eq_refl). Qed.

(** ** Releases *)
Section Rels.
Context {V : Type} (le : V -> V -> bool) (special : V -> bool) (T : total_order le).
Notation lv := (l_version V).

Lemma listed h v t : (exists r, In r (published V le h) /\ lv r = v /\ In t (l_targets V r)) <-> In (v, t) h.
Proof. apply (k_offers _ _ _ (kept_published le T h)). Qed.

Lemma asc_of l : sorted le l -> NoDup (map lv l) -> ascending le (map lv l).
Proof.
  induction l as [|r l IH]; intros S N; cbn; [constructor |]. apply StronglySorted_inv in S. destruct S as [S1 S2]. inversion N as [|? ? N1 N2]; subst.
  constructor; [now apply IH |]. apply Forall_forall. intros v Hv. apply in_map_iff in Hv. destruct Hv as (q & <- & Hq). split.
  - rewrite Forall_forall in S2. exact (S2 q Hq).
  - intros E. apply N1. rewrite E. now apply in_map.
Qed.
Lemma in_order h : ascending le (map lv (published V le h)).
Proof. destruct (kept_published le T h) as [A B _ _]. now apply asc_of. Qed.

Lemma add_target_nodup t r : NoDup (l_targets V r) -> NoDup (l_targets V (add_target V t r)).
Proof.
  unfold add_target. destruct (existsb (Z.eqb t) (l_targets V r)) eqn:E; auto. cbn. intros N.
  apply (Permutation_NoDup (Permutation_cons_append _ _)). constructor; auto. intros X.
  assert (Y : existsb (Z.eqb t) (l_targets V r) = true) by (apply existsb_exists; exists t; split; auto; apply Z.eqb_refl). congruence.
Qed.
Lemma add_to_all (P : release V -> Prop) v t : (forall r, P r -> P (add_target V t r)) ->
  forall l l', add_to V le v t l = Some l' -> Forall P l -> Forall P l'.
Proof.
  intros A. induction l as [|r l IH]; intros l' H F; [discriminate |]. cbn in H. inversion F; subst. destruct (veq V le (lv r) v).
  - injection H as <-. constructor; auto.
  - destruct (add_to V le v t l) as [l1|]; [| discriminate]. injection H as <-. constructor; auto.
Qed.
Lemma published_all (P : release V -> Prop) h : (forall t r, P r -> P (add_target V t r)) -> (forall v t, P (mkRel V v false [t])) ->
  Forall P (published V le h).
Proof.
  intros A B. unfold published. induction h as [|[v t] h IH] using rev_ind; [constructor |]. rewrite fold_left_app. cbn.
  unfold add_release at 1. cbn [fst snd]. destruct (add_to V le v t _) as [l'|] eqn:E; [eapply add_to_all; eauto |].
  eapply Permutation_Forall; [symmetry; apply sort_perm |]. apply Forall_app. auto.
Qed.
Lemma once h r : In r (published V le h) -> NoDup (l_targets V r) /\ l_yanked V r = false.
Proof.
  intros H. assert (F : Forall (fun r => NoDup (l_targets V r) /\ l_yanked V r = false) (published V le h)).
  { apply published_all.
    - intros t q [N Y]. split; [now apply add_target_nodup |]. unfold add_target. destruct (existsb _ _); auto.
    - intros v t. split; [| reflexivity]. cbn. constructor; [intros [] | constructor]. }
  rewrite Forall_forall in F. now apply F.
Qed.

Lemma latest_is_find (l : list (release V)) : latest V l = find (fun _ => true) (rev l).
Proof. unfold latest. destruct (rev l); reflexivity. Qed.
Lemma newest h : match latest V (published V le h) with
  | Some r => (exists t, In (lv r, t) h) /\ forall v t, In (v, t) h -> le v (lv r) = true
  | None => h = [] end.
Proof.
  destruct (kept_published le T h) as [A B C D]. rewrite latest_is_find. pose proof (sorted_find le T (fun _ => true) _ A) as F.
  destruct (find (fun _ => true) (rev (published V le h))) as [r|].
  - destruct F as (F1 & _ & F3). split.
    + specialize (D r F1). destruct (l_targets V r) as [|t ts] eqn:E; [congruence |]. exists t. apply C. exists r. rewrite E. repeat split; auto. now left.
    + intros v t H. apply C in H. destruct H as (q & Hq & <- & _). auto.
  - destruct h as [|[v t] h]; auto. exfalso. destruct (proj2 (C v t) (or_introl eq_refl)) as (q & Hq & _). discriminate (F q Hq).
Qed.
Lemma targets_has t (r : release V) : existsb (Z.eqb t) (l_targets V r) = true <-> In t (l_targets V r).
Proof.
  rewrite existsb_exists. split; [intros (x & H & E); apply Z.eqb_eq in E; now subst | intros H; exists t; split; auto; apply Z.eqb_refl].
Qed.
Lemma pick_iff t pre (r : release V) :
  (if negb pre && special (lv r) then false else existsb (Z.eqb t) (l_targets V r)) = true <-> wanted special pre (lv r) /\ In t (l_targets V r).
Proof.
  unfold wanted. rewrite <- targets_has. destruct pre, (special (lv r)); cbn; intuition congruence.
Qed.
Lemma newest_for h t pre : match latest_for V special t pre (published V le h) with
  | Some r => In (lv r, t) h /\ wanted special pre (lv r) /\ In t (l_targets V r) /\
              forall v, In (v, t) h -> wanted special pre v -> le v (lv r) = true
  | None => forall v, In (v, t) h -> ~ wanted special pre v end.
Proof.
  destruct (kept_published le T h) as [A B C D]. unfold latest_for.
  match goal with |- context [find ?p _] => pose proof (sorted_find le T p _ A) as F; destruct (find p (rev (published V le h))) as [r|] end.
  - destruct F as (F1 & F2 & F3). apply pick_iff in F2. destruct F2 as [W I]. split; [| split; [| split]]; auto.
    + apply C. exists r. auto.
    + intros v H Wv. apply C in H. destruct H as (q & Hq & <- & Iq). apply F3; auto. apply pick_iff. auto.
  - intros v H W. apply C in H. destruct H as (q & Hq & <- & Iq). specialize (F q Hq). cbn beta in F.
    rewrite (proj2 (pick_iff t pre q) (conj W Iq)) in F. discriminate.
Qed.
Lemma of_target h t : ascending le (map lv (for_target V t (published V le h))) /\
  forall v, In v (map lv (for_target V t (published V le h))) <-> In (v, t) h.
Proof.
  destruct (kept_published le T h) as [A B C D]. unfold for_target. set (l := published V le h) in *. split.
  - apply asc_of.
    + clear - A. induction l as [|r l IH]; cbn; [constructor |]. apply StronglySorted_inv in A. destruct A as [A1 A2]. destruct (existsb _ _); [| now apply IH].
      constructor; [now apply IH |]. apply Forall_forall. intros x Hx. apply filter_In in Hx. rewrite Forall_forall in A2. apply A2. tauto.
    + clear - B. induction l as [|r l IH]; cbn in *; [constructor |]. inversion B as [|? ? B1 B2]; subst. destruct (existsb _ _); [| now apply IH].
      cbn. constructor; [| now apply IH]. intros H. apply B1. apply in_map_iff in H. destruct H as (q & <- & Hq). apply filter_In in Hq. apply in_map. tauto.
  - intros v. rewrite <- C. unfold offers. rewrite in_map_iff. split.
    + intros (r & <- & Hr). apply filter_In in Hr. rewrite targets_has in Hr. exists r. tauto.
    + intros (r & Hr & E & I). exists r. split; auto. apply filter_In. rewrite targets_has. auto.
Qed.
End Rels.

Lemma z_order : total_order Z.leb.
Proof. repeat split; intros; rewrite ?Z.leb_le in *; try lia. Qed.

Lemma yanked_refuted : ~ (forall l t pre r, ascending Z.leb (map (l_version Z) l) -> latest_for Z (fun _ => false) t pre l = Some r -> l_yanked Z r = false).
Proof.
  intros C. assert (H : l_yanked Z (mkRel Z 2 true [1]) = false).
  { apply (C [mkRel Z 1 false [1]; mkRel Z 2 true [1]] 1 false); [| reflexivity]. cbn.
    repeat constructor; discriminate. }
  discriminate.
Qed.
Lemma file_refuted : ~ (forall (l : list (release Z)) r q, NoDup (map (l_version Z) l) -> latest Z l = Some r -> In q l -> l_version Z q <= l_version Z r).
Proof.
  intros C. assert (H : 2 <= 1); [| lia].
  refine (C [mkRel Z 2 false [1]; mkRel Z 1 false [1]] (mkRel Z 1 false [1]) (mkRel Z 2 false [1]) _ eq_refl (or_introl eq_refl)).
  cbn. repeat constructor; intros X; repeat (destruct X as [X|X]; [discriminate |]); contradiction.
Qed.
(** versions 1, 3, 2, then 1 for another target; 3 is a pre-release *)
Definition history : list (Z * Z) := [(1, 10); (3, 10); (2, 10); (1, 11)].
Definition odd3 (v : Z) : bool := v =? 3.
