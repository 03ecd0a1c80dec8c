(** Facts about texts, versions, qualified names and the ordered registry. *)
From Coq Require Import Sorting.Sorted String.
Open Scope string_scope. Open Scope list_scope. Open Scope Z_scope.
From Verif Require Import Base ListFacts NameModel NameSpec NameProofs PackageModel PackageSpec.

(** ** texts *)
Lemma text_eqb_spec a b : reflect (a = b) (text_eqb a b).
Proof. unfold text_eqb. destruct (list_eq_dec Z.eq_dec a b); constructor; assumption. Qed.
Lemma text_eqb_refl a : text_eqb a a = true.
Proof. destruct (text_eqb_spec a a); congruence. Qed.
Lemma text_eqb_sym a b : text_eqb a b = text_eqb b a.
Proof. destruct (text_eqb_spec a b), (text_eqb_spec b a); congruence. Qed.
Lemma version_eqb_spec a b : reflect (a = b) (version_eqb a b).
Proof.
  destruct a as [[a1 a2] a3], b as [[b1 b2] b3]. unfold version_eqb.
  destruct (Z.eqb_spec a1 b1), (Z.eqb_spec a2 b2), (Z.eqb_spec a3 b3); cbn [andb]; constructor; congruence.
Qed.

Lemma ltb_irrefl a : text_ltb a a = false.
Proof. induction a as [|x a IH]; [reflexivity|]. cbn. rewrite IH, Z.ltb_irrefl, Z.eqb_refl. reflexivity. Qed.
Lemma ltb_trans a : forall b c, text_ltb a b = true -> text_ltb b c = true -> text_ltb a c = true.
Proof.
  induction a as [|x a IH]; intros [|y b] [|z c]; cbn; try discriminate; auto.
  intros H1 H2. destruct (Z.ltb_spec x y) as [L1|L1]; cbn in H1.
  - destruct (Z.ltb_spec y z) as [L2|L2]; cbn in H2.
    + apply orb_true_iff. left. apply Z.ltb_lt. lia.
    + destruct (Z.eqb_spec y z); [|discriminate]. apply orb_true_iff. left. apply Z.ltb_lt. lia.
  - destruct (Z.eqb_spec x y) as [->|]; [|discriminate].
    destruct (Z.ltb_spec y z) as [L2|L2]; cbn in H2 |- *; [reflexivity|].
    destruct (Z.eqb_spec y z); [|discriminate]. exact (IH _ _ H1 H2).
Qed.
Lemma ltb_total a : forall b, text_ltb a b = false -> a <> b -> text_ltb b a = true.
Proof.
  induction a as [|x a IH]; intros [|y b]; cbn; try congruence; auto.
  intros H N. destruct (Z.ltb_spec x y); [discriminate|]. cbn in H.
  destruct (Z.ltb_spec y x); [reflexivity|]. assert (x = y) by lia. subst y.
  rewrite Z.eqb_refl in *. cbn in *. apply IH; congruence.
Qed.
Lemma ltb_neq a b : text_ltb a b = true -> a <> b.
Proof. intros H ->. rewrite ltb_irrefl in H. discriminate. Qed.
Lemma ltb_prefix a x b : text_ltb a (a ++ x :: b) = true.
Proof. induction a as [|y a IH]; [reflexivity|]. cbn. rewrite IH, Z.ltb_irrefl, Z.eqb_refl. reflexivity. Qed.

(** ** splitting *)
Lemma split_none c s : ~ In c s -> split_on c s = (s, []).
Proof.
  induction s as [|x s IH]; intros N; [reflexivity|]. cbn. rewrite IH by (intros H; apply N; right; exact H).
  destruct (Z.eqb_spec x c) as [E|]; [|reflexivity]. destruct N. left. exact E.
Qed.
Lemma split_some c a b : ~ In c a -> split_on c (a ++ c :: b) = (a, let '(h, r) := split_on c b in h :: r).
Proof.
  induction a as [|x a IH]; intros N; cbn.
  - destruct (split_on c b) as [h r]. rewrite Z.eqb_refl. reflexivity.
  - rewrite IH by (intros H; apply N; right; exact H).
    destruct (Z.eqb_spec x c) as [E|]; [|reflexivity]. destruct N. left. exact E.
Qed.

(** ** versions *)
Definition version_ok (v : version) : Prop := let '(a, b, c) := v in u64 a /\ u64 b /\ u64 c.

Lemma print_number n : u64 n -> Forall is_digit (print_dec n) /\ parse_number (print_dec n) = Some n.
Proof.
  intros H. unfold u64 in H. destruct (print_dec_spec n ltac:(lia)) as (F & V & _ & N).
  split; [exact F|]. unfold parse_number. destruct (print_dec n) as [|d l] eqn:E; [congruence|].
  apply parse_digits_spec; [lia|]. rewrite V. repeat split; auto; lia.
Qed.
Lemma digits_not c l : ~ is_digit c -> Forall is_digit l -> ~ In c l.
Proof. intros N F H. rewrite Forall_forall in F. exact (N (F _ H)). Qed.

Lemma parse_print v : version_ok v -> parse_version (print_version v) = Some v.
Proof.
  destruct v as [[a b] c]. intros (A & B & C). unfold parse_version, print_version. cbn [app].
  destruct (print_number a A) as [FA PA], (print_number b B) as [FB PB], (print_number c C) as [FC PC].
  assert (D : ~ is_digit 46) by (unfold is_digit; lia).
  rewrite split_some by (apply digits_not; assumption).
  rewrite split_some by (apply digits_not; assumption).
  rewrite split_none by (apply digits_not; assumption).
  rewrite PA, PB, PC. reflexivity.
Qed.
Lemma print_version_inj v w : version_ok v -> version_ok w -> print_version v = print_version w -> v = w.
Proof. intros V W E. pose proof (parse_print v V) as P. rewrite E, (parse_print w W) in P. congruence. Qed.
Lemma print_version_chars v x : version_ok v -> In x (print_version v) -> is_digit x \/ x = 46.
Proof.
  destruct v as [[a b] c]. intros (A & B & C). unfold print_version. cbn [app].
  rewrite in_app_iff. cbn [In]. rewrite in_app_iff. cbn [In].
  destruct (print_number a A) as [FA _], (print_number b B) as [FB _], (print_number c C) as [FC _].
  rewrite Forall_forall in FA, FB, FC. intros [H|[H|[H|[H|H]]]]; auto.
Qed.
Lemma print_version_not v x : version_ok v -> ~ is_digit x -> x <> 46 -> ~ In x (print_version v).
Proof. intros V D N H. destruct (print_version_chars v x V H); contradiction. Qed.
Lemma print_version_dot v : In 46 (print_version v).
Proof.
  destruct v as [[a b] c]. unfold print_version. rewrite in_app_iff. right. left. reflexivity.
Qed.

(** ** names *)
Definition key_of (p : pkg) : key := mkKey (p_name p) (Some (p_group p)) (Some (p_version p)).
Lemma well_named_package p : well_named (Package p) -> p_group p <> [] /\ p_name p <> [] /\
  ~ In 47 (p_group p) /\ ~ In 47 (p_name p) /\ ~ In 64 (p_name p) /\ version_ok (p_version p).
Proof. exact (fun H => H). Qed.

Lemma kept_as_package p : kept_as (Package p) = pkg_id p.
Proof. reflexivity. Qed.
Lemma name_of_package p : name_of (Package p) = pkg_fqdn p.
Proof. reflexivity. Qed.
Lemma qualified_package p : well_named (Package p) -> qualified (name_of (Package p)) = Some (key_of p).
Proof.
  intros (_ & _ & G & N & A & V). unfold qualified. cbn [name_of].
  change (text "/") with [47]. change (text "@") with [64]. cbn [app].
  rewrite (split_some 47 (p_group p)) by exact G.
  rewrite (split_none 47) by (rewrite in_app_iff; intros [H|[H|H]]; [auto|discriminate|];
    revert H; apply print_version_not; [exact V|unfold is_digit; lia|lia]).
  rewrite (split_some 64) by exact A.
  rewrite (split_none 64) by (apply print_version_not; [exact V|unfold is_digit; lia|lia]).
  rewrite parse_print by exact V. reflexivity.
Qed.
Lemma qualified_plain n : ~ In 47 n -> qualified n = Some (mkKey n None None).
Proof. intros H. unfold qualified. rewrite split_none by exact H. reflexivity. Qed.
Lemma qualified_group g n : ~ In 47 g -> ~ In 47 n -> ~ In 64 n ->
  qualified (g ++ text "/" ++ n) = Some (mkKey n (Some g) None).
Proof.
  intros G N A. unfold qualified. change (text "/") with [47]. cbn [app].
  rewrite (split_some 47 g) by exact G. rewrite (split_none 47 n) by exact N. rewrite (split_none 64 n) by exact A.
  reflexivity.
Qed.
Lemma delete_id i : well_named i -> exists k, qualified (name_of i) = Some k /\ store_id k = kept_as i.
Proof.
  destruct i as [p|n]; intros W.
  - exists (key_of p). split; [apply qualified_package; exact W|reflexivity].
  - exists (mkKey n None None). split; [apply qualified_plain; exact W|].
    unfold store_id. cbn. apply app_nil_r.
Qed.

Lemma match_package k id p : is_match k id (Some p) = true <->
  k_name k = p_name p /\ (forall g, k_group k = Some g -> g = p_group p) /\
  (forall v, k_version k = Some v -> v = p_version p).
Proof.
  unfold is_match. rewrite !andb_true_iff. split.
  - intros ((V & G) & N). destruct (text_eqb_spec (k_name k) (p_name p)); [|discriminate].
    refine (conj e (conj _ _)).
    + intros g E. rewrite E in G. destruct (text_eqb_spec (p_group p) g); congruence.
    + intros v E. rewrite E in V. destruct (version_eqb_spec (p_version p) v); congruence.
  - intros (N & G & V). split; [split|].
    + destruct (k_version k) as [v|]; [|reflexivity]. rewrite (V v eq_refl).
      destruct (version_eqb_spec (p_version p) (p_version p)); congruence.
    + destruct (k_group k) as [g|]; [|reflexivity]. rewrite (G g eq_refl). apply text_eqb_refl.
    + rewrite N. apply text_eqb_refl.
Qed.
Lemma match_plain k id : is_match k id None = true <-> k_name k = id.
Proof. unfold is_match. destruct (text_eqb_spec (k_name k) id); split; congruence. Qed.
Lemma match_key_of p id q : is_match (key_of p) id (Some q) = true -> q = p.
Proof.
  rewrite match_package. intros (N & G & V). specialize (G _ eq_refl). specialize (V _ eq_refl).
  destruct p, q. cbn in *. congruence.
Qed.

(** ** the ordered registry *)
Definition before (a b : bytes * module) : Prop := text_ltb (fst a) (fst b) = true.
Definition ordered (r : registry) : Prop := StronglySorted before r.

Lemma entry_in r id m : ordered r -> (In (id, m) r <-> entry r id = Some m).
Proof.
  induction 1 as [|[i m'] r S IH F]; [cbn; split; [contradiction|discriminate]|].
  cbn [In entry]. destruct (text_eqb_spec i id) as [->|N].
  - split.
    + intros [E|E]; [congruence|]. rewrite Forall_forall in F. specialize (F _ E). unfold before in F.
      cbn in F. rewrite ltb_irrefl in F. discriminate.
    + intros [= ->]. left. reflexivity.
  - rewrite <- IH. split; [intros [E|E]; [congruence|exact E]|auto].
Qed.
Lemma insert_in r id m e : In e (insert r id m) -> e = (id, m) \/ In e r.
Proof.
  induction r as [|[i m'] r IH]; cbn; [intros [H|[]]; auto|].
  destruct (text_ltb id i); [cbn; intros [H|H]; auto|].
  destruct (text_eqb id i); cbn; intros [H|H]; auto. destruct (IH H); auto.
Qed.
Lemma insert_ordered r id m : ordered r -> ordered (insert r id m).
Proof.
  induction 1 as [|[i m'] r S IH F]; cbn; [constructor; constructor|].
  rewrite Forall_forall in F.
  destruct (text_ltb id i) eqn:L.
  - constructor; [constructor; [exact S|apply Forall_forall; exact F]|].
    constructor; [exact L|]. apply Forall_forall. intros e H. specialize (F e H). unfold before in *. cbn in *.
    eapply ltb_trans; eassumption.
  - destruct (text_eqb_spec id i) as [->|N].
    + constructor; [exact S|]. apply Forall_forall. intros e H. specialize (F e H). exact F.
    + constructor; [exact IH|]. apply Forall_forall. intros e H.
      destruct (insert_in _ _ _ _ H) as [->|H']; [|exact (F e H')].
      unfold before. cbn. apply ltb_total; assumption.
Qed.
Lemma entry_insert r id m j : entry (insert r id m) j = if text_eqb id j then Some m else entry r j.
Proof.
  induction r as [|[i m'] r IH]; [reflexivity|].
  cbn [insert]. destruct (text_ltb id i) eqn:L.
  - reflexivity.
  - destruct (text_eqb_spec id i) as [->|N].
    + cbn [entry]. destruct (text_eqb_spec i j); reflexivity.
    + cbn [entry]. rewrite IH. destruct (text_eqb_spec i j) as [->|N2]; [|reflexivity].
      destruct (text_eqb_spec id j); congruence.
Qed.
Lemma erase_in r id e : In e (erase r id) <-> In e r /\ fst e <> id.
Proof.
  unfold erase. rewrite filter_In. destruct (text_eqb_spec (fst e) id); cbn; intuition congruence.
Qed.
Lemma erase_ordered r id : ordered r -> ordered (erase r id).
Proof.
  unfold erase. induction 1 as [|e r S IH F]; [constructor|]. cbn [filter].
  destruct (negb (text_eqb (fst e) id)); [|exact IH]. constructor; [exact IH|].
  rewrite Forall_forall in *. intros x H. apply filter_In in H as [H _]. exact (F x H).
Qed.
Lemma entry_erase r id j : entry (erase r id) j = if text_eqb id j then None else entry r j.
Proof.
  unfold erase. induction r as [|[i m'] r IH]; [destruct (text_eqb id j); reflexivity|].
  cbn [filter fst entry]. destruct (text_eqb_spec i id) as [->|N]; cbn [negb].
  - rewrite IH. destruct (text_eqb_spec id j); reflexivity.
  - cbn [entry]. rewrite IH. destruct (text_eqb_spec i j) as [->|]; [|reflexivity].
    destruct (text_eqb_spec id j); congruence.
Qed.

Lemma find_first (f : bytes * module -> bool) r : ordered r -> match find f r with
  | Some e => In e r /\ f e = true /\ forall e', In e' r -> f e' = true -> e' = e \/ text_ltb (fst e) (fst e') = true
  | None => forall e', In e' r -> f e' = false
  end.
Proof.
  induction 1 as [|e r S IH F]; [cbn; contradiction|]. cbn [find]. destruct (f e) eqn:E.
  - refine (conj (or_introl eq_refl) (conj E _)). intros e' [->|H] _; [left; reflexivity|].
    right. rewrite Forall_forall in F. exact (F e' H).
  - destruct (find f r) as [x|].
    + destruct IH as (I1 & I2 & I3). refine (conj (or_intror I1) (conj I2 _)).
      intros e' [->|H] M; [congruence|exact (I3 e' H M)].
    + intros e' [->|H]; [exact E|exact (IH e' H)].
Qed.
