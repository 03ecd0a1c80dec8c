(** Lemmas about the policy, texts and lists. *)
From Verif Require Import Base NameModel PackageModel PackageProofs AuthModel AuthSpec.

Lemma text_eqb_iff a b : text_eqb a b = true <-> a = b.
Proof. unfold text_eqb. destruct (list_eq_dec Z.eq_dec a b); split; congruence. Qed.
Lemma kind_eqb_iff a b : kind_eqb a b = true <-> a = b.
Proof. destruct a, b; cbn; split; intros H; try discriminate H; reflexivity. Qed.
Lemma action_eqb_iff a b : action_eqb a b = true <-> a = b.
Proof. destruct a, b; cbn; split; intros H; try discriminate H; reflexivity. Qed.

Lemma at_key_in {A} (l : list (bytes * A)) k v : at_key l k = Some v -> In (k, v) l.
Proof.
  induction l as [|[x w] l IH]; cbn; [discriminate|]. destruct (text_eqb x k) eqn:E; [|auto].
  apply text_eqb_iff in E as ->. intros [= ->]. auto.
Qed.
Lemma at_key_iff {A} (l : list (bytes * A)) k v : NoDup (map fst l) -> (at_key l k = Some v <-> In (k, v) l).
Proof.
  intros N. split; [apply at_key_in|]. induction l as [|[x w] l IH]; cbn; [intros []|].
  inversion N as [|? ? N1 N2]; subst. intros [E|H].
  - injection E as -> ->. rewrite (proj2 (text_eqb_iff k k) eq_refl). reflexivity.
  - destruct (text_eqb x k) eqn:E; [|auto]. apply text_eqb_iff in E as ->.
    destruct N1. apply (in_map fst) in H. exact H.
Qed.
Lemma at_key_none {A} (l : list (bytes * A)) k : at_key l k = None <-> forall v, ~ In (k, v) l.
Proof.
  induction l as [|[x w] l IH]; cbn; [split; auto|]. destruct (text_eqb x k) eqn:E.
  - apply text_eqb_iff in E as ->. split; [discriminate|]. intros H. destruct (H w). auto.
  - rewrite IH. split; intros H v; [|intros F; apply (H v); auto].
    intros [F|F]; [|exact (H v F)]. injection F as -> ->.
    rewrite (proj2 (text_eqb_iff k k) eq_refl) in E. discriminate E.
Qed.
Lemma at_kind_iff (l : rules) k v : NoDup (map fst l) -> (at_kind l k = Some v <-> In (k, v) l).
Proof.
  intros N. induction l as [|[x w] l IH]; cbn; [split; [discriminate|intros []]|].
  inversion N as [|? ? N1 N2]; subst. specialize (IH N2). destruct (kind_eqb x k) eqn:E.
  - apply kind_eqb_iff in E as ->. split; [intros [= ->]; auto|]. intros [F|F]; [congruence|].
    destruct N1. apply (in_map fst) in F. exact F.
  - rewrite IH. split; [auto|]. intros [F|F]; [|exact F]. injection F as -> ->.
    rewrite (proj2 (kind_eqb_iff k k) eq_refl) in E. discriminate E.
Qed.

(** ** parts of texts *)
Lemma starts_iff s p : starts s p = true <-> exists b, s = p ++ b.
Proof.
  revert s. induction p as [|x p IH]; intros s.
  - split; [intros _; exists s; reflexivity|destruct s; reflexivity].
  - destruct s as [|y s]; cbn.
    + split; [discriminate|]. intros (b & H). discriminate H.
    + rewrite andb_true_iff, IH, Z.eqb_eq. split.
      * intros (-> & b & ->). exists b. reflexivity.
      * intros (b & H). injection H as -> ->. split; [reflexivity|exists b; reflexivity].
Qed.
Lemma contains_iff s p : contains s p = true <-> part p s.
Proof.
  unfold part. induction s as [|y s IH]; cbn [contains].
  - rewrite orb_false_r, starts_iff. split.
    + intros (b & H). exists [], b. exact H.
    + intros (a & b & H). destruct a; [|discriminate H]. exists b. exact H.
  - rewrite orb_true_iff, IH, starts_iff. split.
    + intros [(b & H)|(a & b & H)]; [exists [], b; exact H|exists (y :: a), b; cbn; congruence].
    + intros (a & b & H). destruct a as [|x a]; [left; exists b; exact H|].
      right. injection H as -> ->. exists a, b. reflexivity.
Qed.
Lemma selected_iff f n : selected f n = true <-> wanted f n.
Proof.
  unfold selected, wanted. destruct f as [|x f]; [split; auto|]. rewrite existsb_exists. split.
  - intros (y & I0 & H). right. exists y. split; [exact I0|apply contains_iff, H].
  - intros [H|(y & I0 & H)]; [discriminate H|]. exists y. split; [exact I0|apply contains_iff, H].
Qed.

(** ** the policy *)
Lemma permits_none a x : permits a None x = true <-> only x = None /\ (may x = a \/ may x = MayAll).
Proof.
  unfold permits. destruct (only x).
  - split; [discriminate|]. intros (H & _). discriminate H.
  - rewrite orb_true_iff, !action_eqb_iff. tauto.
Qed.
Lemma evaluate_gen p a k i roles : proper p -> evaluate p a k i roles = true <->
  exists role r l x, In role roles /\ In (role, r) p /\ In (k, l) r /\ In x l /\ permits a i x = true.
Proof.
  intros (P & Q). unfold evaluate. rewrite existsb_exists. split.
  - intros (role & R & H). destruct (at_key p role) as [r|] eqn:K; [|discriminate H].
    apply (at_key_iff p role r P) in K. destruct (at_kind r k) as [l|] eqn:K2; [|discriminate H].
    apply (at_kind_iff r k l (Q _ _ K)) in K2. apply existsb_exists in H as (x & X & H).
    exists role, r, l, x. auto.
  - intros (role & r & l & x & R & K & K2 & X & H). exists role. split; [exact R|].
    rewrite (proj2 (at_key_iff p role r P) K), (proj2 (at_kind_iff r k l (Q _ _ K)) K2).
    apply existsb_exists. exists x. auto.
Qed.
Lemma evaluate_grants p a k roles : proper p -> (evaluate p a k None roles = true <-> grants p roles a k).
Proof.
  intros P. rewrite (evaluate_gen p a k None roles P). unfold grants.
  split; intros (role & r & l & x & A & B & C & D & H); exists role, r, l, x;
    refine (conj A (conj B (conj C (conj D _)))); apply permits_none; exact H.
Qed.
Lemma allow_iff c k a : proper_ctx c -> (allow_type c k a = true <-> allowed c a k).
Proof.
  destruct c as [| |p roles]; cbn [allow_type allowed proper_ctx].
  - tauto.
  - intros _. rewrite orb_true_iff, action_eqb_iff, kind_eqb_iff. tauto.
  - intros P. apply evaluate_grants, P.
Qed.
Lemma allow_not c k a : proper_ctx c -> ~ allowed c a k -> allow_type c k a = false.
Proof. intros P N. destruct (allow_type c k a) eqn:E; [|reflexivity]. destruct N. apply (allow_iff c k a P), E. Qed.

Lemma evaluate_general p a k roles : evaluate (general p) a k None roles = evaluate p a k None roles.
Proof.
  unfold evaluate. induction roles as [|role roles IH]; [reflexivity|]. cbn [existsb]. rewrite IH. f_equal. clear IH.
  assert (L : forall l, existsb (permits a None) (filter (fun x => match only x with None => true | Some _ => false end) l)
                        = existsb (permits a None) l).
  { induction l as [|x l IH]; [reflexivity|]. cbn [filter existsb]. destruct (only x) eqn:O.
    - rewrite IH. unfold permits at 2. rewrite O. reflexivity.
    - cbn [existsb]. rewrite IH. reflexivity. }
  induction p as [|[x r] p IH]; [reflexivity|]. cbn [general map at_key fst snd].
  change (map _ p) with (general p). destruct (text_eqb x role); [|exact IH]. clear IH.
  induction r as [|[y l] r IH]; [reflexivity|]. cbn [map at_kind fst snd].
  destruct (kind_eqb y k); [apply L|exact IH].
Qed.

(** ** the file *)
Lemma action_text_no a : ~ In 58 (action_text a).
Proof. destruct a; cbn; intuition lia. Qed.
Lemma parse_action_text a : parse_action (action_text a) = Some a.
Proof. destruct a; vm_compute; reflexivity. Qed.
Lemma parse_action_iff s a : parse_action s = Some a <-> s = action_text a.
Proof.
  split; [|intros ->; apply parse_action_text]. unfold parse_action. intros H. apply find_some in H as (_ & H).
  apply text_eqb_iff in H. auto.
Qed.
Lemma split_fst c s : ~ In c (fst (split_on c s)).
Proof.
  induction s as [|x s IH]; cbn; [tauto|]. destruct (split_on c s) as [h r]. destruct (Z.eqb_spec x c) as [|N]; cbn in *; tauto.
Qed.
Lemma split_fst_snd c s i r : snd (split_on c s) = i :: r -> ~ In c i.
Proof.
  revert i r. induction s as [|x s IH]; cbn; intros i r H; [discriminate H|].
  pose proof (split_fst c s) as F. destruct (split_on c s) as [h t]. destruct (x =? c); cbn in *; [|eauto].
  injection H as -> _. exact F.
Qed.
Lemma perm_file x : parse_perm (print_perm x) = Some x <-> (forall i, only x = Some i -> ~ In 58 i).
Proof.
  destruct x as [a [i|]]; unfold print_perm, parse_perm; cbn [only may].
  - cbn [app]. rewrite (split_some 58 _ i (action_text_no a)). pose proof (split_fst 58 i) as F.
    destruct (split_on 58 i) as [h t] eqn:S. rewrite parse_action_text. split.
    + intros [= ->] j [= <-]. cbn [fst] in F. exact F.
    + intros H. rewrite (split_none 58 i (H i eq_refl)) in S. injection S as -> _. reflexivity.
  - rewrite (split_none 58 _ (action_text_no a)), parse_action_text. split; [intros _ i H; discriminate H|reflexivity].
Qed.
Lemma perm_bad a t : ~ In 58 a -> (forall x, a <> action_text x) -> parse_perm a = None /\ parse_perm (a ++ 58 :: t) = None.
Proof.
  intros N B. assert (P : parse_action a = None).
  { destruct (parse_action a) as [x|] eqn:E; [|reflexivity]. apply parse_action_iff in E. destruct (B x E). }
  unfold parse_perm. rewrite (split_none 58 a N), (split_some 58 a t N). destruct (split_on 58 t) as [h r].
  rewrite P. auto.
Qed.

(** ** names *)
Lemma in_names {A} (l : list (bytes * A)) n : In n (names_of l) <-> exists v, In (n, v) l.
Proof.
  unfold names_of. rewrite in_map_iff. split.
  - intros ([x v] & E & H). cbn in E. subst x. exists v. exact H.
  - intros (v & H). exists (n, v). auto.
Qed.
Lemma in_names_filter {A} (f : A -> bool) (l : list (bytes * A)) n :
  In n (names_of (filter (fun e => f (snd e)) l)) <-> exists v, In (n, v) l /\ f v = true.
Proof.
  rewrite in_names. split; intros (v & H); exists v; [apply filter_In in H|apply filter_In]; exact H.
Qed.
Lemma in_drop {A} (l : list (bytes * A)) k n v : In (n, v) (drop l k) <-> In (n, v) l /\ n <> k.
Proof.
  unfold drop. rewrite filter_In. cbn [fst]. rewrite negb_true_iff. split; intros (H & E); split; try exact H.
  - intros ->. rewrite (proj2 (text_eqb_iff k k) eq_refl) in E. discriminate E.
  - destruct (text_eqb n k) eqn:F; [|reflexivity]. apply text_eqb_iff in F. contradiction.
Qed.
