(** Proofs about connectors on this machine. *)
From Coq Require Import ZArith List Bool Lia Permutation.
Import ListNotations.
From Verif Require Import Base NameModel NameProofs DeployModel DeploySpec.
Open Scope Z_scope.

Lemma same_eq a b : same a b = true <-> a = b.
Proof. unfold same. destruct (list_eq_dec Z.eq_dec a b); split; congruence. Qed.
Lemma same_refl a : same a a = true. Proof. now apply same_eq. Qed.
Lemma same_neq a b : same a b = false <-> a <> b.
Proof. rewrite <- not_true_iff_false, same_eq. tauto. Qed.

Lemma found n l e : find_by_name n l = Some e -> In e l /\ e_name e = n.
Proof. intros H. apply find_some in H. destruct H as (A & B). now apply same_eq in B. Qed.
Lemma not_found n l : find_by_name n l = None <-> ~ In n (map e_name l).
Proof.
  unfold find_by_name. split.
  - intros H C. apply in_map_iff in C. destruct C as (e & E & I0). pose proof (find_none _ _ H e I0) as F. cbn in F. apply same_neq in F. congruence.
  - intros H. destruct (find _ l) eqn:E; auto. apply find_some in E. destruct E as (A & B). apply same_eq in B. exfalso. apply H. apply in_map_iff. eauto.
Qed.
Lemma remove_in n l e : In e (remove_first n l) -> In e l.
Proof. induction l as [|x l IH]; cbn; auto. destruct (same (e_name x) n); cbn; intuition. Qed.
Lemma remove_names n l : NoDup (map e_name l) -> remove_first n l = filter (fun e => negb (same (e_name e) n)) l.
Proof.
  induction l as [|x l IH]; cbn; auto. intros N. inversion N as [|? ? A B]; subst. destruct (same (e_name x) n) eqn:E; cbn.
  - apply same_eq in E. subst. symmetry. clear IH N B. induction l as [|y l IH]; cbn in *; auto. destruct (same (e_name y) (e_name x)) eqn:F.
    + apply same_eq in F. intuition.
    + cbn. f_equal. intuition.
  - f_equal. auto.
Qed.

Lemma nodup_step m c : NoDup (names m) -> NoDup (names (after m c)).
Proof.
  unfold names, after. intros N. destruct c as [n p t|n|p|p|p x| |d]; cbn; auto.
  - destruct (find_by_name n (load m)) eqn:F; cbn; auto. unfold load at 1. cbn. rewrite map_app. cbn. apply not_found in F.
    apply (Permutation.Permutation_NoDup (l := n :: map e_name (load m))).
    + apply Permutation.Permutation_cons_append.
    + now constructor.
  - destruct (find_by_name n (load m)) as [e|] eqn:F; cbn; auto.
    assert (R : NoDup (map e_name (remove_first n (load m)))).
    { rewrite remove_names by auto. clear F. induction (load m) as [|x l IH]; cbn; auto. cbn in N. inversion N as [|? ? A B]; subst.
      destruct (negb (same (e_name x) n)); cbn; auto. constructor; auto. intros C. apply A. apply in_map_iff in C. destruct C as (y & <- & I0). apply filter_In in I0. apply in_map. tauto. }
    destruct (e_tmp e) as [d|]; cbn; auto. destruct (x_tmp m d); cbn; auto.
  - destruct (x_proc m p) as [[]|]; cbn; auto.
  - constructor.
Qed.
Lemma distinct l : NoDup (names (deployed new_machine l)).
Proof.
  assert (G : forall l m, NoDup (names m) -> NoDup (names (deployed m l))).
  { clear l. induction l as [|c l IH]; intros m N; auto. cbn. apply IH. now apply nodup_step. }
  apply G. constructor.
Qed.

Lemma start_iff m n p t : ans m (Start n p t) = Done <-> ~ listed n m.
Proof.
  unfold ans, listed, names. cbn. pose proof (not_found n (load m)) as F. destruct (find_by_name n (load m)); cbn; split; try discriminate; try tauto.
  intros H. apply F in H. discriminate.
Qed.
Lemma started m n p t : ~ listed n m -> let m' := after m (Start n p t) in
  list_all m' = map (fun x => if Z.eq_dec (e_pid x) p then (e_name x, true) else (e_name x, match x_proc m (e_pid x) with Some _ => true | None => false end)) (load m) ++ [(n, true)] /\
  x_proc m' p = Some (Conn (x_starts m) n) /\ (forall q, q <> p -> x_proc m' q = x_proc m q) /\ show_log n m' = Some [].
Proof.
  intros N m'. unfold listed, names in N. apply not_found in N.
  assert (E : m' = mkMach (Some (load m ++ [mkEntry p n (log_name n) t])) (set_proc p (Some (Conn (x_starts m) n)) (x_proc m)) (match t with Some d => set_tmp d true (x_tmp m) | None => x_tmp m end) (set_text (log_name n) [] (x_log m)) (x_starts m + 1)).
  { unfold m', after. cbn. rewrite N. reflexivity. }
  rewrite E. split; [| split; [| split]].
  - unfold list_all. cbn [x_proc]. unfold load at 1. cbn [x_index]. rewrite map_app. cbn. unfold set_proc at 2. rewrite Z.eqb_refl. f_equal. apply map_ext. intros x. unfold set_proc.
    destruct (Z.eq_dec (e_pid x) p) as [->|Q]; [now rewrite Z.eqb_refl |]. apply Z.eqb_neq in Q. now rewrite Q.
  - cbn. unfold set_proc. now rewrite Z.eqb_refl.
  - intros q Q. cbn. unfold set_proc. apply Z.eqb_neq in Q. now rewrite Q.
  - unfold show_log, load at 1. cbn [x_index]. assert (F : find_by_name n (load m ++ [mkEntry p n (log_name n) t]) = Some (mkEntry p n (log_name n) t)).
    { unfold find_by_name in *. clear E. induction (load m) as [|x l IH]; cbn in *; [now rewrite same_refl |]. destruct (same (e_name x) n); [discriminate | auto]. }
    rewrite F. cbn. unfold set_text. now rewrite same_refl.
Qed.
(** a name that is taken *)
Lemma taken m n p t : listed n m -> let m' := after m (Start n p t) in
  ans m (Start n p t) = Failed /\ load m' = load m /\ x_proc m' p = Some (Conn (x_starts m) n) /\ x_log m' (log_name n) = [].
Proof.
  intros L m'. unfold m', ans, after. cbn. destruct (find_by_name n (load m)) eqn:F; [| exfalso; now apply not_found in F].
  cbn. unfold set_proc, set_text, load. cbn. rewrite Z.eqb_refl, same_refl. repeat split.
Qed.

Lemma shutdown_none m n : ans m (Shutdown n) = NotFound <-> ~ listed n m.
Proof.
  unfold ans, listed, names. cbn. pose proof (not_found n (load m)) as F. destruct (find_by_name n (load m)) as [e|]; cbn; [| tauto].
  split; [| intros H; apply F in H; discriminate]. destruct (e_tmp e) as [d|]; [destruct (x_tmp m d) |]; discriminate.
Qed.
Lemma shutdown_none_same m n : ~ listed n m -> load (after m (Shutdown n)) = load m /\ (forall p, x_proc (after m (Shutdown n)) p = x_proc m p).
Proof. intros L. apply not_found in L. unfold after. cbn. rewrite L. auto. Qed.
Lemma shut m n : NoDup (names m) -> ans m (Shutdown n) = Done -> let m' := after m (Shutdown n) in
  exists e, In e (load m) /\ e_name e = n /\ x_proc m' (e_pid e) = None /\ (forall q, q <> e_pid e -> x_proc m' q = x_proc m q) /\
  load m' = filter (fun x => negb (same (e_name x) n)) (load m) /\ (forall d, e_tmp e = Some d -> x_tmp m' d = false).
Proof.
  unfold names. intros N A. unfold after, ans in *. cbn in *. destruct (find_by_name n (load m)) as [e|] eqn:F; [| discriminate].
  destruct (found _ _ _ F) as (I0 & E). exists e. split; auto. split; auto. rewrite remove_names in * by auto.
  destruct (e_tmp e) as [d|]; [destruct (x_tmp m d); [| discriminate] |]; cbn; unfold set_proc; rewrite Z.eqb_refl; repeat split; auto;
    try (intros q Q; apply Z.eqb_neq in Q; now rewrite Q); try (intros ? [= <-]; unfold set_tmp; now rewrite Z.eqb_refl); discriminate.
Qed.
Lemma gone m n : NoDup (names m) -> ans m (Shutdown n) = Done -> ~ listed n (after m (Shutdown n)) /\ (forall k, k <> n -> listed k m -> listed k (after m (Shutdown n))) /\
  forall p t, ans (after m (Shutdown n)) (Start n p t) = Done.
Proof.
  intros N A. destruct (shut m n N A) as (e & _ & _ & _ & _ & L & _).
  assert (G : ~ listed n (after m (Shutdown n))).
  { unfold listed, names. rewrite L. intros C. apply in_map_iff in C. destruct C as (x & <- & I0). apply filter_In in I0. destruct I0 as (_ & I0). rewrite same_refl in I0. discriminate. }
  split; [exact G | split].
  - intros k K H. unfold listed, names in *. rewrite L. apply in_map_iff in H. destruct H as (x & <- & I0). apply in_map. apply filter_In. split; auto. apply negb_true_iff. now apply same_neq.
  - intros p t. now apply start_iff.
Qed.
Lemma shutdown_iff m n : ans m (Shutdown n) = Done <-> exists e, find_by_name n (load m) = Some e /\ forall d, e_tmp e = Some d -> x_tmp m d = true.
Proof.
  unfold ans. cbn. destruct (find_by_name n (load m)) as [e|]; cbn; [| split; [discriminate | intros (e & E & _); discriminate]].
  destruct (e_tmp e) as [d|] eqn:T; [destruct (x_tmp m d) eqn:D |]; cbn; split; try discriminate; auto.
  - intros _. exists e. split; auto. intros ? H. rewrite T in H. now injection H as <-.
  - intros (x & [= <-] & H). rewrite (H d T) in D. discriminate.
  - intros _. exists e. split; auto. congruence.
Qed.
(** a directory that is gone *)
Lemma stuck m n e d : find_by_name n (load m) = Some e -> e_tmp e = Some d -> x_tmp m d = false -> let m' := after m (Shutdown n) in
  ans m (Shutdown n) = Failed /\ load m' = load m /\ x_proc m' (e_pid e) = None /\ ans m' (Shutdown n) = Failed /\ forall p t, ans m' (Start n p t) = Failed.
Proof.
  intros F T D m'. assert (E : m' = mkMach (x_index m) (set_proc (e_pid e) None (x_proc m)) (x_tmp m) (x_log m) (x_starts m)) by (unfold m', after; cbn; now rewrite F, T, D).
  assert (L : load m' = load m) by (rewrite E; reflexivity).
  assert (X : x_tmp m' d = false) by (rewrite E; exact D).
  assert (P : x_proc m' (e_pid e) = None) by (rewrite E; cbn; unfold set_proc; now rewrite Z.eqb_refl).
  clearbody m'. clear E. unfold ans. cbn. rewrite L, F, T, D, X. repeat split; auto.
Qed.

Lemma status m n : In (n, true) (list_all m) <-> exists e, In e (load m) /\ e_name e = n /\ x_proc m (e_pid e) <> None.
Proof.
  unfold list_all. rewrite in_map_iff. split.
  - intros (e & E & I0). injection E as E1 E2. exists e. repeat split; auto. destruct (x_proc m (e_pid e)); congruence.
  - intros (e & I0 & <- & P). exists e. split; auto. destruct (x_proc m (e_pid e)); congruence.
Qed.
Lemma list_names m : map fst (list_all m) = names m.
Proof. unfold list_all, names. rewrite map_map. reflexivity. Qed.

Lemma true_step m c : true_index m -> new_pid m c -> true_index (after m c).
Proof.
  unfold true_index, after. intros T P. destruct c as [n p t|n|p|p|p x| |d]; cbn in P |- *.
  - destruct P as (P1 & P2).
    assert (S1 : forall e w, In e (load m) -> set_proc p (Some (Conn (x_starts m) n)) (x_proc m) (e_pid e) = Some w -> exists r, w = Conn r (e_name e)).
    { intros e w I0 H. unfold set_proc in H. destruct (e_pid e =? p) eqn:E; [| eauto]. apply Z.eqb_eq in E. exfalso. apply P2. unfold pids. rewrite <- E. now apply in_map. }
    destruct (find_by_name n (load m)) as [f|]; cbn; intros e w I0 H; [now apply S1 |].
    unfold load in I0 at 1. cbn in I0. apply in_app_iff in I0. destruct I0 as [I0|[<-|[]]]; [now apply S1 |]. cbn in *. unfold set_proc in H. rewrite Z.eqb_refl in H. injection H as <-. eauto.
  - assert (S1 : forall q e w, In e (load m) -> set_proc q None (x_proc m) (e_pid e) = Some w -> exists r, w = Conn r (e_name e)).
    { intros q e w I0 H. unfold set_proc in H. destruct (e_pid e =? q); [discriminate | eauto]. }
    destruct (find_by_name n (load m)) as [f|]; cbn; [| intros e w I0 H; unfold load in I0; cbn in I0; eauto].
    destruct (e_tmp f) as [d|]; [destruct (x_tmp m d) |]; cbn; intros e w I0 H; unfold load in I0; cbn in I0; try apply remove_in in I0; eauto.
  - intros e w I0 H. unfold set_proc in H. destruct (e_pid e =? p); [discriminate |]. eauto.
  - destruct P as (P1 & P2). intros e w I0 H. unfold set_proc in H. destruct (e_pid e =? p) eqn:E; [| eauto]. apply Z.eqb_eq in E. exfalso. apply P2. unfold pids. rewrite <- E. apply in_map. exact I0.
  - destruct (x_proc m p) as [[r n|]|]; cbn; eauto.
  - intros e w I0. destruct I0.
  - eauto.
Qed.
Lemma truth l : new_pids new_machine l -> true_index (deployed new_machine l).
Proof.
  assert (G : forall l m, true_index m -> new_pids m l -> true_index (deployed m l)).
  { clear l. induction l as [|c l IH]; intros m T P; auto. cbn in *. destruct P as (P & Q). apply IH; auto. now apply true_step. }
  intros P. apply G; auto. intros e w I0. destruct I0.
Qed.
Lemma kills_own l n q w : new_pids new_machine l -> let m := deployed new_machine l in
  x_proc m q = Some w -> x_proc (after m (Shutdown n)) q = None -> exists r, w = Conn r n.
Proof.
  intros P m H K. pose proof (truth l P) as T. fold m in T. unfold after in K. cbn in K. destruct (find_by_name n (load m)) as [e|] eqn:F; [| cbn in K; congruence].
  destruct (found _ _ _ F) as (I0 & E).
  assert (Q : q = e_pid e).
  { destruct (Z.eq_dec q (e_pid e)) as [|N]; auto. exfalso. apply Z.eqb_neq in N. destruct (e_tmp e) as [d|]; [destruct (x_tmp m d) |]; cbn in K; unfold set_proc in K; rewrite N in K; congruence. }
  subst q. rewrite <- E. apply (T e w I0 H).
Qed.
Lemma runs_own l n : new_pids new_machine l -> In (n, true) (list_all (deployed new_machine l)) -> exists p r, x_proc (deployed new_machine l) p = Some (Conn r n).
Proof.
  intros P H. apply status in H. destruct H as (e & I0 & E & N). destruct (x_proc _ (e_pid e)) as [w|] eqn:W; [| congruence].
  destruct (truth l P e w I0 W) as (r & ->). exists (e_pid e), r. now rewrite W, E.
Qed.
(** entries go only by a shutdown *)
Lemma stays m c n : ordinary c -> c <> Shutdown n -> listed n m -> listed n (after m c).
Proof.
  unfold listed, names, after. intros O N H. destruct c as [k p t|k|p|p|p x| |d]; cbn in *; auto; try tauto.
  - destruct (find_by_name k (load m)); cbn; auto. unfold load at 1. cbn. rewrite map_app. apply in_app_iff. auto.
  - assert (R : In n (map e_name (remove_first k (load m)))).
    { assert (K : k <> n) by congruence. induction (load m) as [|x l IH]; cbn in *; auto. destruct (same (e_name x) k) eqn:E.
      - apply same_eq in E. destruct H as [H|H]; auto. congruence.
      - cbn. destruct H; auto. }
    destruct (find_by_name k (load m)) as [e|]; cbn; auto. destruct (e_tmp e) as [d|]; [destruct (x_tmp m d) |]; cbn; auto.
  - destruct (x_proc m p) as [[]|]; cbn; auto.
Qed.

(** ** Logs *)
Lemma log_plain n : no_dot n -> log_name n = n ++ dot_log.
Proof.
  intros N. unfold log_name. destruct (split_last 46 n) as [(a & b)|] eqn:E; auto. apply split_last_spec in E. destruct E as (E & _). exfalso. apply N. rewrite E. apply in_app_iff. right. now left.
Qed.
Lemma log_apart n k : no_dot n -> no_dot k -> log_name n = log_name k -> n = k.
Proof. intros N K. rewrite !log_plain by auto. apply app_inv_tail. Qed.
Lemma log_of_own m p x r n : x_proc m p = Some (Conn r n) -> x_log (after m (Print p x)) (log_name n) = x_log m (log_name n) ++ [x] /\
  forall k, no_dot n -> no_dot k -> k <> n -> x_log (after m (Print p x)) (log_name k) = x_log m (log_name k).
Proof.
  intros H. unfold after. cbn. rewrite H. cbn. unfold set_text. rewrite same_refl. split; auto. intros k N K D. destruct (same (log_name k) (log_name n)) eqn:E; auto.
  apply same_eq in E. apply log_apart in E; auto. congruence.
Qed.
Lemma entries_log l e : In e (load (deployed new_machine l)) -> e_log e = log_name (e_name e).
Proof.
  assert (G : forall l m, (forall e, In e (load m) -> e_log e = log_name (e_name e)) -> forall e, In e (load (deployed m l)) -> e_log e = log_name (e_name e)).
  { clear. induction l as [|c l IH]; intros m H; auto. cbn. apply IH. intros e. destruct c as [n p t|n|p|p|p x| |d]; cbn; auto.
    - destruct (find_by_name n (load m)); cbn; auto. unfold load at 1. cbn. rewrite in_app_iff. intros [I0|[<-|[]]]; auto.
    - destruct (find_by_name n (load m)) as [f|]; cbn; auto. destruct (e_tmp f) as [d|]; [destruct (x_tmp m d) |]; cbn; auto; unfold load at 1; cbn; intros I0; apply remove_in in I0; auto.
    - destruct (x_proc m p) as [[]|]; cbn; auto.
    - intros []. }
  apply G. intros x [].
Qed.
Lemma shows l n : listed n (deployed new_machine l) -> show_log n (deployed new_machine l) = Some (x_log (deployed new_machine l) (log_name n)).
Proof.
  intros L. unfold show_log. destruct (find_by_name n (load (deployed new_machine l))) as [e|] eqn:F; [| exfalso; now apply not_found in F].
  destruct (found _ _ _ F) as (I0 & E). now rewrite (entries_log _ _ I0), E.
Qed.

Lemma find_in n l e : NoDup (map e_name l) -> In e l -> e_name e = n -> find_by_name n l = Some e.
Proof.
  intros N I0 E. destruct (find_by_name n l) as [f|] eqn:F.
  - destruct (found _ _ _ F) as (J & G). f_equal. clear F. induction l as [|x l IH]; [destruct I0 |]. cbn in N. inversion N as [|? ? A B]; subst.
    destruct I0 as [I0|I0], J as [J|J]; subst; auto; exfalso; apply A; [rewrite <- G | rewrite G]; now apply in_map.
  - apply not_found in F. exfalso. apply F. rewrite <- E. now apply in_map.
Qed.
Lemma shut_iff l e : let m := deployed new_machine l in In e (load m) -> (ans m (Shutdown (e_name e)) = Done <-> forall d, e_tmp e = Some d -> x_tmp m d = true).
Proof.
  intros m I0. rewrite shutdown_iff. pose proof (find_in _ _ e (distinct l) I0 eq_refl) as FI. fold m in FI. rewrite FI. clear FI. split; eauto. intros (x & [= <-] & H). exact H.
Qed.
Lemma stuck_at l e d : let m := deployed new_machine l in In e (load m) -> e_tmp e = Some d -> x_tmp m d = false -> let m' := after m (Shutdown (e_name e)) in
  ans m (Shutdown (e_name e)) = Failed /\ load m' = load m /\ x_proc m' (e_pid e) = None /\ ans m' (Shutdown (e_name e)) = Failed /\ forall p t, ans m' (Start (e_name e) p t) = Failed.
Proof. intros m I0 T D. apply stuck with (d := d); auto. apply find_in; auto. apply distinct. Qed.
(** what a start leaves *)
Lemma start_leaves m n p t : let m' := after m (Start n p t) in
  (~ listed n m -> load m' = load m ++ [mkEntry p n (log_name n) t]) /\
  (forall d, x_tmp m' d = true <-> t = Some d \/ x_tmp m d = true) /\
  (forall f, f <> log_name n -> x_log m' f = x_log m f) /\ x_starts m' = x_starts m + 1.
Proof.
  unfold after. cbn. split; [| split; [| split]].
  - intros N. apply not_found in N. now rewrite N.
  - intros d. assert (G : (match t with Some d0 => set_tmp d0 true (x_tmp m) | None => x_tmp m end) d = true <-> t = Some d \/ x_tmp m d = true).
    { destruct t as [k|]; [| intuition discriminate]. unfold set_tmp. destruct (d =? k) eqn:E; [apply Z.eqb_eq in E; subst; tauto |]. apply Z.eqb_neq in E. intuition congruence. }
    destruct (find_by_name n (load m)); exact G.
  - intros f F. apply same_neq in F. destruct (find_by_name n (load m)); cbn; unfold set_text; now rewrite F.
  - destruct (find_by_name n (load m)); reflexivity.
Qed.
(** what a shutdown leaves *)
Lemma shutdown_leaves m n : let m' := after m (Shutdown n) in
  (forall f, x_log m' f = x_log m f) /\ (forall d, x_tmp m d = true -> (forall e, In e (load m) -> e_name e = n -> e_tmp e <> Some d) -> x_tmp m' d = true).
Proof.
  unfold after. cbn. destruct (find_by_name n (load m)) as [e|] eqn:F; cbn; [| auto]. destruct (found _ _ _ F) as (I0 & E).
  destruct (e_tmp e) as [k|] eqn:T; [destruct (x_tmp m k) |]; cbn; split; auto. intros d D N. unfold set_tmp. destruct (d =? k) eqn:Q; auto. apply Z.eqb_eq in Q. subst. exfalso. exact (N e I0 eq_refl T).
Qed.
Lemma log_shape a b : a <> [] -> ~ In 46 b -> log_name (a ++ [46] ++ b) = a ++ dot_log.
Proof.
  intros A B. unfold log_name. assert (S0 : split_last 46 (a ++ [46] ++ b) = Some (a, b)) by (apply split_last_spec; auto). rewrite S0. destruct a; [now destruct A | reflexivity].
Qed.
Lemma log_hidden b : ~ In 46 b -> log_name (46 :: b) = 46 :: b ++ dot_log.
Proof. intros B. unfold log_name. assert (S0 : split_last 46 (46 :: b) = Some ([], b)) by (apply (split_last_spec 46 (46 :: b) [] b); auto). now rewrite S0. Qed.

(** ** Examples and what is not so *)
Lemma world m c : (match c with Exit _ | Foreign _ | Print _ _ | Clean _ => True | _ => False end) -> load (after m c) = load m /\
  (forall q, (match c with Exit p | Foreign p => q <> p | _ => True end) -> x_proc (after m c) q = x_proc m q).
Proof.
  unfold after. destruct c as [n p t|n|p|p|p x| |d]; cbn; intros H; try tauto; auto.
  - split; auto. intros q Q. unfold set_proc. apply Z.eqb_neq in Q. now rewrite Q.
  - split; auto. intros q Q. unfold set_proc. apply Z.eqb_neq in Q. now rewrite Q.
  - destruct (x_proc m p) as [[]|]; cbn; auto.
Qed.
Lemma exits m p n : In (n, true) (list_all m) -> (forall e, In e (load m) -> e_name e = n -> e_pid e = p) -> In (n, false) (list_all (after m (Exit p))).
Proof.
  intros H U. apply status in H. destruct H as (e & I0 & E & _). unfold list_all. apply in_map_iff. exists e. split; [| exact I0]. cbn. rewrite (U e I0 E). unfold set_proc. now rewrite Z.eqb_refl, E.
Qed.
Definition a_name : text := [97].
Definition b_name : text := [98].
Definition two : list cmd := [Start a_name 10 None; Start b_name 11 (Some 1); Print 10 7].
Lemma two_new : new_pids new_machine two.
Proof. cbn. repeat split; auto; intros C; intuition discriminate. Qed.

Lemma orphan_refuted : ~ (forall l n p t, new_pids new_machine (l ++ [Start n p t]) -> ans (deployed new_machine l) (Start n p t) = Failed ->
  x_proc (after (deployed new_machine l) (Start n p t)) p = None \/ In p (pids (after (deployed new_machine l) (Start n p t)))).
Proof.
  intros C. destruct (C two a_name 12 None) as [H|H]; [| reflexivity | discriminate | cbn in H; intuition discriminate].
  cbn. repeat split; auto; intros D; intuition discriminate.
Qed.
Lemma orphan_log_refuted : ~ (forall l n p t, ans (deployed new_machine l) (Start n p t) = Failed -> show_log n (after (deployed new_machine l) (Start n p t)) = show_log n (deployed new_machine l)).
Proof. intros C. specialize (C two a_name 12 None eq_refl). discriminate. Qed.
Lemma pid_refuted : ~ (forall l n q, x_proc (deployed new_machine l) q = Some Other -> x_proc (after (deployed new_machine l) (Shutdown n)) q = Some Other).
Proof. intros C. specialize (C [Start a_name 10 None; Exit 10; Foreign 10] a_name 10 eq_refl). discriminate. Qed.
Lemma tmp_refuted : ~ (forall l n, listed n (deployed new_machine l) -> ans (deployed new_machine l) (Shutdown n) = Done).
Proof. intros C. specialize (C [Start b_name 11 (Some 1); Clean 1] b_name (or_introl eq_refl)). discriminate. Qed.
Lemma spoil_refuted : ~ (forall l n p r, x_proc (deployed new_machine l) p = Some (Conn r n) -> ans (deployed new_machine l) (Start n (p + 1) None) = Failed).
Proof. intros C. specialize (C [Start a_name 10 None; Spoil] a_name 10 0 eq_refl). discriminate. Qed.
Lemma log_refuted : ~ (forall n k, log_name n = log_name k -> n = k).
Proof. intros C. specialize (C [97; 46; 98] [97; 46; 99] eq_refl). discriminate. Qed.
