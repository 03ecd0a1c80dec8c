(** Proofs about the names of packages on the hub. *)
From Coq Require Import ZArith List Bool Lia.
Import ListNotations.
From Verif Require Import Base NameModel NameProofs PackageModel RegistryModel RegistrySpec RegistryProofs HubNameModel HubNameSpec.
Open Scope Z_scope.

Lemma allowed_iff c : allowed c = true <-> good_char c.
Proof.
  unfold allowed, good_char. rewrite !orb_true_iff, !andb_true_iff, !Z.leb_le, !Z.eqb_eq. lia.
Qed.
Lemma name_valid_iff s : name_valid s = true <-> forall c, In c s -> good_char c.
Proof. unfold name_valid. rewrite forallb_forall. split; intros H c Hc; [apply allowed_iff | apply allowed_iff]; auto. Qed.
Lemma filled_iff s : filled s = true <-> s <> [].
Proof. destruct s; cbn; split; congruence. Qed.
Lemma checked p : naming_check p = true <-> good_names p.
Proof.
  unfold naming_check, good_names, good_text. rewrite !andb_true_iff, !name_valid_iff, !filled_iff. tauto.
Qed.
Lemma good_no s c : (forall x, In x s -> good_char x) -> ~ good_char c -> ~ In c s.
Proof. intros H N I. exact (N (H c I)). Qed.
Lemma no_slash : ~ good_char 47. Proof. unfold good_char. lia. Qed.
Lemma no_at : ~ good_char 64. Proof. unfold good_char. lia. Qed.
Lemma no_dot : ~ good_char 46. Proof. unfold good_char. lia. Qed.

Lemma trim_none c s : ~ In c s -> trim c s = s.
Proof. destruct s as [|x t]; auto. intros H. cbn. destruct (x =? c) eqn:E; auto. apply Z.eqb_eq in E. subst. exfalso. apply H. now left. Qed.
Lemma trim_first c x s : x <> c -> trim c (x :: s) = x :: s.
Proof. intros H. cbn. destruct (x =? c) eqn:E; auto. apply Z.eqb_eq in E. congruence. Qed.
Lemma cut_at c a b : ~ In c a -> cut_first c (a ++ c :: b) = Some (a, b).
Proof.
  induction a as [|x a IH]; intros H; cbn; [now rewrite Z.eqb_refl |].
  destruct (x =? c) eqn:E; [apply Z.eqb_eq in E; subst; exfalso; apply H; now left |].
  rewrite IH; auto. intros X. apply H. now right.
Qed.
Lemma cut_none c s : ~ In c s -> cut_first c s = None.
Proof.
  induction s as [|x s IH]; intros H; cbn; auto. destruct (x =? c) eqn:E; [apply Z.eqb_eq in E; subst; exfalso; apply H; now left |].
  rewrite IH; auto. intros X. apply H. now right.
Qed.
Lemma last_at c a b : ~ In c b -> split_last c (a ++ c :: b) = Some (a, b).
Proof. intros H. apply split_last_spec. auto. Qed.

Lemma split_name p : good_names p -> ~ In 64 (h_version p) -> cli_split (pkg_name p) = Some (h_group p, h_name p, h_version p).
Proof.
  intros [[G1 G2] [N1 N2]] V. unfold cli_split, pkg_name.
  replace (h_group p ++ [47] ++ h_name p ++ [64] ++ h_version p) with ((h_group p ++ 47 :: h_name p) ++ 64 :: h_version p) by (rewrite <- app_assoc; reflexivity).
  rewrite (last_at 64 _ _ V), (cut_at 47 _ _ (good_no _ _ G2 no_slash)), (trim_none 47 _ (good_no _ _ N2 no_slash)), (trim_none 64 _ V). reflexivity.
Qed.
Lemma same_place base p : good_names p -> ~ In 64 (h_version p) -> cli_url base (pkg_name p) = Some (push_url base p).
Proof.
  intros G V. unfold cli_url. rewrite (split_name p G V). unfold push_url. destruct G as [[G1 _] _].
  destruct (h_group p) as [|x g]; [congruence |]. cbn. now rewrite <- !app_assoc.
Qed.
Lemma group_less base n v : ~ In 47 n -> ~ In 64 v -> cli_url base (n ++ [64] ++ v) = Some (base ++ [47] ++ n ++ [47] ++ v).
Proof.
  intros N V. unfold cli_url, cli_split. change ([64] ++ v) with (64 :: v). rewrite (last_at 64 _ _ V), (cut_none 47 _ N), (trim_none 64 _ V). reflexivity.
Qed.
Lemma needs_version base s : cli_url base s = None <-> ~ In 64 s.
Proof.
  unfold cli_url, cli_split. split.
  - intros H I. apply in_split in I. destruct I as (a & b & ->).
    assert (X : split_last 64 (a ++ 64 :: b) <> None).
    { clear H. induction a as [|x a IH]; cbn; [destruct (split_last 64 b) as [[]|]; discriminate |].
      destruct (split_last 64 (a ++ 64 :: b)) as [[]|]; [discriminate | congruence]. }
    destruct (split_last 64 (a ++ 64 :: b)) as [[o v]|]; [| congruence].
    destruct (match cut_first 47 o with Some (a0, b0) => (a0, trim 47 b0) | None => ([], o) end). discriminate.
  - intros N. destruct (split_last 64 s) as [[o v]|] eqn:E; auto. apply split_last_spec in E. destruct E as [-> _].
    exfalso. apply N. apply in_or_app. right. now left.
Qed.
Lemma parts_apart g n v g' n' v' : ~ In 47 g -> ~ In 47 n -> ~ In 47 v -> ~ In 47 g' -> ~ In 47 n' -> ~ In 47 v' ->
  g ++ 47 :: (n ++ 47 :: v) = g' ++ 47 :: (n' ++ 47 :: v') -> g = g' /\ n = n' /\ v = v'.
Proof.
  intros A B C A' B' C' E. apply (f_equal (split 47)) in E. rewrite !split_sep in E.
  rewrite (split_one 47 g), (split_one 47 n), (split_one 47 v), (split_one 47 g'), (split_one 47 n'), (split_one 47 v') in E; auto.
  cbn in E. now injection E.
Qed.
Lemma apart base p q : good_names p -> good_names q -> ~ In 47 (h_version p) -> ~ In 47 (h_version q) ->
  push_url base p = push_url base q -> p = q.
Proof.
  intros [[_ G] [_ N]] [[_ G'] [_ N']] V V' E. unfold push_url in E. apply app_inv_head in E. injection E as E.
  pose proof no_slash as X. apply parts_apart in E; auto; try (apply good_no; auto; fail).
  destruct p, q; cbn in *. destruct E as (-> & -> & ->). reflexivity.
Qed.
Lemma object p : good_names p -> plain_version (h_version p) -> object_path (pkg_name p) = Some (obj_name p).
Proof.
  intros [[G1 G2] [N1 N2]] [V1 V2]. unfold object_path, pkg_name.
  change ([47] ++ h_name p ++ [64] ++ h_version p) with (47 :: (h_name p ++ 64 :: h_version p)). rewrite split_sep.
  rewrite (split_one 47 _ (good_no _ _ G2 no_slash)), (split_one 47 (h_name p ++ 64 :: h_version p)).
  - cbn [app]. rewrite split_sep, (split_one 64 _ (good_no _ _ N2 no_at)), (split_one 64 _ V2). reflexivity.
  - intros H. apply in_app_or in H. destruct H as [H|[H|H]]; [exact (good_no _ _ N2 no_slash H) | discriminate | auto].
Qed.

Lemma file_apart n v n' v' : (forall c, In c n -> good_char c) -> (forall c, In c n' -> good_char c) -> dotted v -> dotted v' ->
  n ++ 45 :: v = n' ++ 45 :: v' -> n = n' /\ v = v'.
Proof.
  intros N N' (a & b & -> & A) (a' & b' & -> & A') E.
  assert (D : forall m x, (forall c, In c m -> good_char c) -> (forall c, In c x -> 48 <= c <= 57) -> ~ In 46 (m ++ 45 :: x)).
  { intros m x M X H. apply in_app_or in H. destruct H as [H|[H|H]]; [exact (no_dot (M _ H)) | discriminate | specialize (X _ H); lia]. }
  assert (E2 : cut_first 46 ((n ++ 45 :: a) ++ 46 :: b) = cut_first 46 ((n' ++ 45 :: a') ++ 46 :: b')).
  { f_equal. rewrite <- !app_assoc. exact E. }
  rewrite !cut_at in E2 by auto. injection E2 as E2 ->.
  assert (L : split_last 45 (n ++ 45 :: a) = split_last 45 (n' ++ 45 :: a')) by now rewrite E2.
  rewrite !last_at in L; [injection L as -> ->; auto | |]; intros H; [apply A' in H | apply A in H]; lia.
Qed.
Lemma ipkg_off a b : a ++ ipkg = b ++ ipkg -> a = b.
Proof. apply app_inv_tail. Qed.
Lemma object_apart p q : good_names p -> good_names q -> dotted (h_version p) -> dotted (h_version q) -> obj_name p = obj_name q -> p = q.
Proof.
  intros [[_ G] [_ N]] [[_ G'] [_ N']] V V' E. unfold obj_name in E.
  assert (C : cut_first 47 (h_group p ++ 47 :: (h_name p ++ 45 :: h_version p ++ ipkg)) = cut_first 47 (h_group q ++ 47 :: (h_name q ++ 45 :: h_version q ++ ipkg))).
  { f_equal. exact E. }
  rewrite !cut_at in C by (apply good_no; [assumption | exact no_slash]). injection C as Eg En.
  change (h_name p ++ 45 :: h_version p ++ ipkg) with (h_name p ++ (45 :: h_version p) ++ ipkg) in En.
  change (h_name q ++ 45 :: h_version q ++ ipkg) with (h_name q ++ (45 :: h_version q) ++ ipkg) in En.
  rewrite !app_assoc in En. apply ipkg_off in En. apply file_apart in En; auto.
  destruct p, q; cbn in *. destruct En as [-> ->]. now subst.
Qed.
Lemma packagefile_apart p q : good_names p -> good_names q -> dotted (h_version p) -> dotted (h_version q) ->
  packagefile p = packagefile q -> h_name p = h_name q /\ h_version p = h_version q.
Proof.
  intros [_ [_ N]] [_ [_ N']] V V' E. unfold packagefile in E.
  change (h_name p ++ [45] ++ h_version p ++ ipkg) with (h_name p ++ (45 :: h_version p) ++ ipkg) in E.
  change (h_name q ++ [45] ++ h_version q ++ ipkg) with (h_name q ++ (45 :: h_version q) ++ ipkg) in E.
  rewrite !app_assoc in E. apply ipkg_off in E. apply file_apart in E; auto.
Qed.
Lemma downloaded_as p : good_names p -> ~ In 64 (h_version p) -> cli_file (pkg_name p) = Some (h_group p ++ [45] ++ packagefile p).
Proof.
  intros G V. unfold cli_file. rewrite (split_name p G V). destruct G as [[G1 _] _]. unfold packagefile.
  destruct (h_group p) as [|x g]; [congruence |]. cbn. now rewrite <- !app_assoc.
Qed.
Lemma sent file p : push_sent file p = true <-> (forall c, In c (h_name p) -> good_char c) /\ file = packagefile p.
Proof. unfold push_sent. rewrite andb_true_iff, name_valid_iff, same_eq. tauto. Qed.
Lemma transform s t : transformed s = Some t <-> (forall c, In c s -> good_char c) /\ t = map (fun c => if c =? 45 then 95 else c) s.
Proof.
  unfold transformed. destruct (name_valid s) eqn:E.
  - rewrite name_valid_iff in E. split; [intros H; injection H as <-; auto | intros [_ ->]; auto].
  - split; [discriminate |]. intros [H _]. apply name_valid_iff in H. congruence.
Qed.

(** ** What is not so *)
Definition v1 : text := [49; 46; 48].     (* 1.0 *)
Definition ab_c : pm := mkPm [97; 45; 98] [99] v1.
Definition a_bc : pm := mkPm [97] [98; 45; 99] v1.
Lemma goods s : name_valid s = true -> s <> [] -> good_text s.
Proof. intros H N. split; auto. now apply name_valid_iff. Qed.
Lemma v1_dotted : dotted v1.
Proof. exists [49], [48]. split; [reflexivity |]. intros c [<-|[]]. lia. Qed.
Lemma download_refuted : ~ (forall p q, good_names p -> good_names q -> dotted (h_version p) -> dotted (h_version q) ->
  plain_version (h_version p) -> plain_version (h_version q) -> cli_file (pkg_name p) = cli_file (pkg_name q) -> p = q).
Proof.
  intros C. assert (P : plain_version v1) by (split; intros H; repeat (destruct H as [H|H]; [discriminate |]); contradiction).
  assert (E : ab_c = a_bc); [| discriminate].
  apply C; try exact v1_dotted; try exact P; try reflexivity; split; apply goods; (reflexivity || discriminate).
Qed.
Lemma object_refuted : ~ (forall p q, good_names p -> good_names q -> plain_version (h_version p) -> plain_version (h_version q) -> obj_name p = obj_name q -> p = q).
Proof.
  intros C. pose (p := mkPm [103] [97] [98; 45; 49]). pose (q := mkPm [103] [97; 45; 98] [49]).
  assert (E : p = q); [| discriminate].
  apply C; try reflexivity; try (split; apply goods; (reflexivity || discriminate)); split; cbn; intros H; repeat (destruct H as [H|H]; [discriminate |]); contradiction.
Qed.
Lemma sent_refuted : ~ (forall file p, push_sent file p = true -> good_names p).
Proof.
  intros C. destruct (C [45; 49; 46; 105; 112; 107; 103] (mkPm [65; 47] [] [49]) eq_refl) as [_ [H _]]. now apply H.
Qed.
Lemma transform_refuted : ~ (forall s s' t, transformed s = Some t -> transformed s' = Some t -> s = s').
Proof. intros C. discriminate (C [97; 45; 98] [97; 95; 98] [97; 95; 98] eq_refl eq_refl). Qed.

(** ** Exactly which names are read, and as what *)
Lemma trim_spec c s : exists k, s = repeat c k ++ trim c s /\ forall t, trim c s <> c :: t.
Proof.
  induction s as [|x s (k & E & N)]; [exists 0%nat; split; [reflexivity | discriminate] |]. cbn [trim].
  destruct (x =? c) eqn:Ex.
  - apply Z.eqb_eq in Ex. subst x. exists (S k). split; [cbn; now rewrite <- E | exact N].
  - exists 0%nat. split; [reflexivity |]. intros t H. injection H as -> _. rewrite Z.eqb_refl in Ex. discriminate.
Qed.
Lemma trim_repeat c k s : (forall t, s <> c :: t) -> trim c (repeat c k ++ s) = s.
Proof.
  intros N. induction k; cbn; [| now rewrite Z.eqb_refl]. destruct s as [|x s]; auto. cbn. destruct (x =? c) eqn:E; auto.
  apply Z.eqb_eq in E. subst. exfalso. exact (N s eq_refl).
Qed.
Lemma cut_first_spec c s : match cut_first c s with Some (a, b) => s = a ++ c :: b /\ ~ In c a | None => ~ In c s end.
Proof.
  induction s as [|x s IH]; cbn; auto. destruct (x =? c) eqn:E.
  - apply Z.eqb_eq in E. subst. auto.
  - apply Z.eqb_neq in E. destruct (cut_first c s) as [[a b]|].
    + destruct IH as [-> N]. split; auto. intros [H|H]; auto.
    + intros [H|H]; auto.
Qed.
Lemma cut_exactly s o p v : cli_split s = Some (o, p, v) <->
  ~ In 64 v /\ ((s = p ++ [64] ++ v /\ o = [] /\ ~ In 47 p) \/
                (exists k, s = o ++ repeat 47 (S k) ++ p ++ [64] ++ v /\ ~ In 47 o /\ forall t, p <> 47 :: t)).
Proof.
  unfold cli_split. split.
  - destruct (split_last 64 s) as [[w ver]|] eqn:E; [| discriminate]. apply split_last_spec in E. destruct E as [-> V].
    pose proof (cut_first_spec 47 w) as C. destruct (cut_first 47 w) as [[a b]|].
    + intros H. injection H as <- <- <-. rewrite (trim_none 64 ver V). split; auto. right. destruct C as [-> A].
      destruct (trim_spec 47 b) as (k & Eb & Nb). exists k. split; [| split; auto]. rewrite Eb at 1. rewrite <- app_assoc. cbn [repeat app]. rewrite <- app_assoc. reflexivity.
    + intros H. injection H as <- <- <-. rewrite (trim_none 64 ver V). split; auto.
  - intros (V & [(-> & -> & P)|(k & -> & O & P)]).
    + change ([64] ++ v) with (64 :: v). rewrite (last_at 64 _ _ V), (cut_none 47 _ P), (trim_none 64 _ V). reflexivity.
    + replace (o ++ repeat 47 (S k) ++ p ++ [64] ++ v) with ((o ++ 47 :: (repeat 47 k ++ p)) ++ 64 :: v) by (rewrite <- app_assoc; cbn [repeat app]; rewrite <- app_assoc; reflexivity).
      rewrite (last_at 64 _ _ V), (cut_at 47 _ _ O), (trim_repeat 47 k p P), (trim_none 64 _ V). reflexivity.
Qed.
Lemma split_two c s a b : split c s = [a; b] <-> s = a ++ c :: b /\ ~ In c a /\ ~ In c b.
Proof.
  split.
  - intros E. pose proof (join_split c s) as J. rewrite E in J. cbn in J. split; auto.
    split; apply (split_parts c s); rewrite E; [now left | right; now left].
  - intros (-> & A & B). rewrite split_sep, (split_one c a A), (split_one c b B). reflexivity.
Qed.
Lemma object_exactly s t : object_path s = Some t <->
  exists p, s = pkg_name p /\ t = obj_name p /\ ~ In 47 (h_group p) /\ ~ In 47 (h_name p) /\ ~ In 64 (h_name p) /\ plain_version (h_version p).
Proof.
  unfold object_path. split.
  - destruct (split 47 s) as [|g [|nv [|]]] eqn:E; try discriminate. destruct (split 64 nv) as [|n [|v [|]]] eqn:E2; try discriminate.
    intros H. injection H as <-. apply split_two in E. apply split_two in E2. destruct E as (-> & A & B). destruct E2 as (-> & C & D).
    exists (mkPm g n v). cbn. unfold plain_version. rewrite in_app_iff in B. cbn in B. repeat split; auto; tauto.
  - intros (p & -> & -> & G & N & N2 & [V1 V2]).
    assert (E : split 47 (pkg_name p) = [h_group p; h_name p ++ 64 :: h_version p]).
    { apply split_two. repeat split; auto. intros H. apply in_app_or in H. destruct H as [H|[H|H]]; [auto | discriminate | auto]. }
    assert (E2 : split 64 (h_name p ++ 64 :: h_version p) = [h_name p; h_version p]) by (apply split_two; auto).
    rewrite E, E2. reflexivity.
Qed.
