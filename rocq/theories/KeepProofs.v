(** Proofs about stored consumer offsets of a cluster. *)
Require Import List Lia. Import ListNotations.
From Verif Require Import Base KeepModel KeepSpec.

Lemma key_eq_iff a b : key_eq a b = true <-> a = b.
Proof.
  destruct a, b. unfold key_eq. simpl. rewrite Bool.andb_true_iff, !Z.eqb_eq. split.
  - intros [-> ->]. reflexivity.
  - intros H. injection H. auto.
Qed.
Lemma key_eq_refl a : key_eq a a = true.
Proof. apply key_eq_iff. reflexivity. Qed.
Lemma key_eq_dec (a b : key) : {a = b} + {a <> b}.
Proof. destruct (key_eq a b) eqn:E; [left; apply key_eq_iff; exact E|right; intros H; apply key_eq_iff in H; congruence]. Qed.
Lemma key_neq a b : a <> b -> key_eq a b = false.
Proof. intros H. destruct (key_eq a b) eqn:E; [apply key_eq_iff in E; contradiction|reflexivity]. Qed.

(** * Tables *)
Lemma lookup_erase k k' t : lookup k (erase k' t) = if key_eq k' k then None else lookup k t.
Proof.
  induction t as [|[x v] t IH]; simpl.
  - destruct (key_eq k' k); reflexivity.
  - destruct (key_eq_dec x k') as [->|N]; simpl.
    + rewrite key_eq_refl. simpl. rewrite IH. destruct (key_eq k' k); reflexivity.
    + rewrite (key_neq _ _ N). simpl. destruct (key_eq_dec x k) as [->|M].
      * rewrite key_eq_refl. rewrite key_neq by congruence. reflexivity.
      * rewrite (key_neq _ _ M). exact IH.
Qed.
Lemma lookup_insert k k' v t : lookup k (insert k' v t) = if key_eq k' k then Some v else lookup k t.
Proof. unfold insert. simpl. rewrite lookup_erase. destruct (key_eq k' k); reflexivity. Qed.
Lemma erase_in k x t : In x (map fst (erase k t)) -> In x (map fst t) /\ x <> k.
Proof.
  intros H. apply in_map_iff in H. destruct H as (e & E & I). apply filter_In in I. destruct I as [I N]. subst x. split.
  - apply in_map. exact I.
  - intros Q. rewrite Q, key_eq_refl in N. discriminate.
Qed.
Lemma nodup_filter (f : key * Z -> bool) t : NoDup (map fst t) -> NoDup (map fst (filter f t)).
Proof.
  induction t as [|e t IH]; simpl; intros N; [constructor|]. apply NoDup_cons_iff in N. destruct N as [A B].
  destruct (f e); simpl; [|apply IH; exact B]. constructor; [|apply IH; exact B].
  intros H. apply A. apply in_map_iff in H. destruct H as (y & Y & I). apply filter_In in I. rewrite <- Y. apply in_map. tauto.
Qed.
Lemma nodup_erase k t : NoDup (map fst t) -> NoDup (map fst (erase k t)).
Proof. apply nodup_filter. Qed.
Lemma nodup_insert k v t : NoDup (map fst t) -> NoDup (map fst (insert k v t)).
Proof. intros N. unfold insert. simpl. constructor; [intros H; apply erase_in in H; tauto|apply nodup_erase; exact N]. Qed.
Lemma lookup_in k v t : NoDup (map fst t) -> (lookup k t = Some v <-> In (k, v) t).
Proof.
  induction t as [|[x w] t IH]; simpl; intros N; [split; [discriminate|intros []]|].
  apply NoDup_cons_iff in N. destruct N as [A B]. destruct (key_eq_dec x k) as [->|M].
  - rewrite key_eq_refl. split.
    + intros H. injection H as ->. left. reflexivity.
    + intros [H|H]; [injection H as ->; reflexivity|]. exfalso. apply A. apply (in_map fst) in H. exact H.
  - rewrite (key_neq _ _ M). rewrite (IH B). split; [intros H; right; exact H|intros [H|H]; [injection H as H1 _; congruence|exact H]].
Qed.
Lemma lookup_none k t : lookup k t = None <-> ~ In k (map fst t).
Proof.
  induction t as [|[x w] t IH]; simpl; [tauto|]. destruct (key_eq_dec x k) as [->|M].
  - rewrite key_eq_refl. split; [discriminate|tauto].
  - rewrite (key_neq _ _ M), IH. tauto.
Qed.
Lemma lookup_erase_all ks : forall k t, lookup k (erase_all ks t) = if existsb (fun x => key_eq x k) ks then None else lookup k t.
Proof.
  unfold erase_all. induction ks as [|x ks IH]; intros k t; simpl; [reflexivity|].
  rewrite IH, lookup_erase. destruct (existsb _ ks), (key_eq x k); reflexivity.
Qed.
Lemma nodup_erase_all ks : forall t, NoDup (map fst t) -> NoDup (map fst (erase_all ks t)).
Proof. unfold erase_all. induction ks as [|x ks IH]; intros t N; simpl; [exact N|]. apply IH, nodup_erase, N. Qed.
Lemma fold_del ks : forall t, fold_left apply_op (map Del ks) t = erase_all ks t.
Proof. unfold erase_all. induction ks as [|x ks IH]; intros t; simpl; [reflexivity|apply IH]. Qed.
Lemma keys_of_in r k t : In k (keys_of r t) <-> fst k = r /\ In k (map fst t).
Proof.
  unfold keys_of. split.
  - intros J. apply in_map_iff in J. destruct J as (e & Q & I). subst k. apply filter_In in I. destruct I as [I E]. apply Z.eqb_eq in E. split; [exact E|apply in_map; exact I].
  - intros [F I]. apply in_map_iff in I. destruct I as (e & E & I). apply in_map_iff. exists e. split; [exact E|]. apply filter_In. split; [exact I|]. apply Z.eqb_eq. exact (eq_trans (f_equal fst E) F).
Qed.
Lemma in_keys (l : list key) k : existsb (fun x => key_eq x k) l = true <-> In k l.
Proof.
  rewrite existsb_exists. split.
  - intros (x & I & E). apply key_eq_iff in E. subst. exact I.
  - intros I. exists k. split; [exact I|apply key_eq_refl].
Qed.
Lemma replay_nodup l : NoDup (map fst (replay l)).
Proof.
  unfold replay. assert (H : forall t, NoDup (map fst t) -> NoDup (map fst (fold_left apply_op l t))); [|apply H; constructor].
  induction l as [|o l IH]; intros t N; simpl; [exact N|]. apply IH. destruct o; [apply (nodup_insert _ _ _ N)|apply (nodup_erase _ _ N)].
Qed.
Lemma replay_app a b : replay (a ++ b) = fold_left apply_op b (replay a).
Proof. apply fold_left_app. Qed.

(** * Histories *)
Fixpoint value (h : list event) (k : key) : option Z :=
  match h with
  | [] => None
  | Stored k' v :: t => if key_eq k' k then Some v else value t k
  | Removed k' :: t => if key_eq k' k then None else value t k
  | Gone r :: t => if r =? fst k then None else value t k
  end.
Lemma value_skip a h k : Forall (fun e => ~ about e k) a -> value (a ++ h) k = value h k.
Proof.
  induction 1 as [|e a N F IH]; simpl; [reflexivity|]. destruct e as [k' v|k'|r]; simpl in N.
  - rewrite (key_neq _ _ N). exact IH.
  - rewrite (key_neq _ _ N). exact IH.
  - destruct (Z.eqb_spec r (fst k)); [contradiction|exact IH].
Qed.
Lemma value_holds h k v : value h k = Some v <-> holds h k v.
Proof.
  split.
  - induction h as [|e h IH]; simpl; [discriminate|].
    assert (step : ~ about e k -> value h k = Some v -> holds (e :: h) k v).
    { intros N V. destruct (IH V) as (a & b & -> & F). exists (e :: a), b. split; [reflexivity|constructor; assumption]. }
    destruct e as [k' w|k'|r]; simpl in step.
    + destruct (key_eq_dec k' k) as [->|N]; [rewrite key_eq_refl|rewrite (key_neq _ _ N); auto].
      intros E. injection E as ->. exists [], h. split; [reflexivity|constructor].
    + destruct (key_eq_dec k' k) as [->|N]; [rewrite key_eq_refl; discriminate|rewrite (key_neq _ _ N); auto].
    + destruct (Z.eqb_spec r (fst k)); [discriminate|auto].
  - intros (a & b & -> & F). rewrite (value_skip _ _ _ F). simpl. rewrite key_eq_refl. reflexivity.
Qed.

(** * The invariant *)
Definition agree (t : table) (h : list event) : Prop := forall k, lookup k t = value h k.
Definition Inv (s : sys) : Prop :=
  agree (replay (y_log s)) (y_hist s)
  /\ (forall i j, leads s i -> leads s j -> i = j)
  /\ (forall i o, p_term (y_spu s i) = Some o ->
        match p_held (y_spu s i) with None => True | Some h => fst h = o /\ NoDup (map fst (snd h)) /\ agree (snd h) (y_hist s) end).

Lemma inv_opened s i h : Inv s -> opened i s = Some h ->
  p_term (y_spu s i) = Some (fst h) /\ NoDup (map fst (snd h)) /\ agree (snd h) (y_hist s).
Proof.
  intros (A & U & H) O. unfold opened in O. destruct (p_term (y_spu s i)) as [o|] eqn:T; [|discriminate].
  specialize (H i o T). destruct (p_held (y_spu s i)) as [h'|] eqn:P; injection O as <-.
  - destruct H as (-> & N & G). auto.
  - simpl. split; [reflexivity|]. split; [apply replay_nodup|exact A].
Qed.
Lemma set_same i x s : y_spu (set_spu i x s) i = x.
Proof. simpl. rewrite Z.eqb_refl. reflexivity. Qed.
Lemma set_other i j x s : j <> i -> y_spu (set_spu i x s) j = y_spu s j.
Proof. intros N. simpl. destruct (Z.eqb_spec j i); [contradiction|reflexivity]. Qed.
Lemma hold_term i h s j : p_term (y_spu (hold i h s) j) = p_term (y_spu s j).
Proof. unfold hold. destruct (Z.eq_dec j i) as [->|N]; [rewrite set_same; reflexivity|rewrite set_other by exact N; reflexivity]. Qed.
Lemma hold_store i h s j : p_store (y_spu (hold i h s) j) = p_store (y_spu s j).
Proof. unfold hold. destruct (Z.eq_dec j i) as [->|N]; [rewrite set_same; reflexivity|rewrite set_other by exact N; reflexivity]. Qed.
Lemma write_spu i h l s : y_spu (write i h l s) = y_spu s.
Proof. unfold write. destruct (current i h s); reflexivity. Qed.
Lemma write_hist i h l s : y_hist (write i h l s) = y_hist s.
Proof. unfold write. destruct (current i h s); reflexivity. Qed.
Lemma write_sessions i h l s : y_sessions (write i h l s) = y_sessions s.
Proof. unfold write. destruct (current i h s); reflexivity. Qed.

Lemma inv_hold s i h : Inv s -> opened i s = Some h -> Inv (hold i h s).
Proof.
  intros I O. destruct (inv_opened _ _ _ I O) as (T & N & G). destruct I as (A & U & H). split; [exact A|]. split.
  - intros a b La Lb. unfold leads in *. rewrite hold_term in La, Lb. auto.
  - intros j o Tj. rewrite hold_term in Tj. unfold hold. destruct (Z.eq_dec j i) as [->|M].
    + rewrite set_same. simpl. assert (fst h = o) by congruence. auto.
    + rewrite set_other by exact M. exact (H j o Tj).
Qed.
Lemma inv_write s i h t l e : Inv s -> opened i s = Some h ->
  NoDup (map fst t) -> agree t (e :: y_hist s) -> agree (replay (y_log s ++ l)) (e :: y_hist s) ->
  Inv (note e (write i h l (hold i (fst h, t) s))).
Proof.
  intros I O N G R. destruct (inv_opened _ _ _ I O) as (T & _ & _). destruct I as (A & U & H).
  unfold write, current. rewrite hold_term, T, Z.eqb_refl. split; [exact R|]. split.
  - intros a b La Lb. unfold leads in La, Lb. cbn [note append y_spu] in La, Lb. rewrite hold_term in La, Lb. exact (U a b La Lb).
  - intros j o Tj. cbn [note append y_spu y_hist] in *. rewrite hold_term in Tj. unfold hold. destruct (Z.eq_dec j i) as [->|M].
    + rewrite set_same. simpl. split; [congruence|]. split; [exact N|exact G].
    + assert (j = i); [|contradiction]. apply U; unfold leads; congruence.
Qed.

Lemma inv_put s i ok k v s' b : Inv s -> put_at i ok k v s = Some (s', b) -> Inv s'.
Proof.
  unfold put_at. intros I E. destruct (opened i s) as [h|] eqn:O; [|discriminate].
  destruct (inv_opened _ _ _ I O) as (T & N & G). destruct ok; injection E as <- _.
  - apply inv_write; auto; [apply nodup_insert; exact N|intros k'; rewrite lookup_insert, G; reflexivity|].
    intros k'. rewrite replay_app. cbn [fold_left apply_op]. rewrite lookup_insert, (proj1 I). reflexivity.
  - apply inv_hold; assumption.
Qed.
Lemma inv_delete s i k s' b : Inv s -> delete_at i true k s = Some (s', b) -> Inv s'.
Proof.
  unfold delete_at. intros I E. destruct (opened i s) as [h|] eqn:O; [|discriminate].
  destruct (inv_opened _ _ _ I O) as (T & N & G). injection E as <- _.
  apply inv_write; auto; [apply nodup_erase; exact N|intros k'; rewrite lookup_erase, G; reflexivity|].
  intros k'. rewrite replay_app. simpl. rewrite lookup_erase, (proj1 I). reflexivity.
Qed.
Lemma inv_drop s i r : Inv s -> Inv (drop_at i None r s).
Proof.
  unfold drop_at. intros I. destruct (opened i s) as [h|] eqn:O; [|exact I].
  destruct (inv_opened _ _ _ I O) as (T & N & G).
  assert (W : forall t, agree t (y_hist s) -> agree (erase_all (keys_of r (snd h)) t) (Gone r :: y_hist s)).
  { intros t At k. rewrite lookup_erase_all. simpl. destruct (existsb _ _) eqn:X.
    - apply in_keys in X. apply keys_of_in in X. destruct X as [<- _]. rewrite Z.eqb_refl. reflexivity.
    - destruct (Z.eqb_spec r (fst k)) as [->|M]; [|apply At]. rewrite At, <- G. apply lookup_none. intros J.
      assert (Y : In k (keys_of (fst k) (snd h))) by (apply keys_of_in; auto). apply in_keys in Y. congruence. }
  apply inv_write; [exact I|exact O|apply nodup_erase_all; exact N|apply W; exact G|].
  rewrite replay_app, fold_del. apply W. exact (proj1 I).
Qed.

(** * Messages *)
Definition dropping (i : Z) (a : sys * list (option nat)) (r : Z) : sys * list (option nat) := (drop_at i (hd None (snd a)) r (fst a), tl (snd a)).
Lemma inv_dropping i gone : forall s fails, Forall (fun x => x = None) fails -> Inv s -> Inv (fst (fold_left (dropping i) gone (s, fails))).
Proof.
  induction gone as [|r gone IH]; intros s fails F I; simpl; [exact I|]. unfold dropping at 2. simpl.
  assert (E : hd None fails = None) by (destruct F; simpl; auto). rewrite E. apply IH; [destruct F; simpl; auto|apply inv_drop; exact I].
Qed.
Lemma inv_set_store s i st : Inv s -> Inv (set_spu i (mkSpu st (p_term (y_spu s i)) (p_held (y_spu s i))) s).
Proof.
  intros (A & U & H). assert (Q : forall j, p_term (y_spu (set_spu i (mkSpu st (p_term (y_spu s i)) (p_held (y_spu s i))) s) j) = p_term (y_spu s j)
     /\ p_held (y_spu (set_spu i (mkSpu st (p_term (y_spu s i)) (p_held (y_spu s i))) s) j) = p_held (y_spu s j)).
  { intros j. destruct (Z.eq_dec j i) as [->|N]; [rewrite set_same; auto|rewrite set_other by exact N; auto]. }
  split; [exact A|]. split.
  - intros a b La Lb. unfold leads in La, Lb. rewrite (proj1 (Q a)) in La. rewrite (proj1 (Q b)) in Lb. exact (U a b La Lb).
  - intros j o T. rewrite (proj1 (Q j)) in T. rewrite (proj2 (Q j)). exact (H j o T).
Qed.
Lemma receive_eq i m fails s : receive i m fails s =
  fst (fold_left (dropping i) (snd (apply_message m (p_store (y_spu s i))))
        (set_spu i (mkSpu (fst (apply_message m (p_store (y_spu s i)))) (p_term (y_spu s i)) (p_held (y_spu s i))) s, fails)).
Proof. unfold receive, dropping. destruct (apply_message m (p_store (y_spu s i))). reflexivity. Qed.

Lemma step_inv s m s' : calm s m -> Inv s -> step s m = Some s' -> Inv s'.
Proof.
  intros C I E. destruct m as [n i r c|n|n v to ok lost|i ok lost k|i a b|i m fails|i|i]; simpl in C, E.
  - destruct (find_session n (y_sessions s)); [discriminate|]. injection E as <-. exact I.
  - injection E as <-. exact I.
  - injection E as <-. unfold commit. destruct (find_session n (y_sessions s)) as [x|]; [|exact I].
    destruct (n_consumer x) as [c|]; [|exact I]. destruct (p_term (y_spu s (n_spu x))).
    + destruct (put_at (n_spu x) ok (n_replica x, c) v s) as [[s1 [|]]|] eqn:P; simpl; try exact I; exact (inv_put _ _ _ _ _ _ _ I P).
    + destruct to as [j|]; [|exact I].
      destruct (put_at j ok (n_replica x, c) v s) as [[s1 [|]]|] eqn:P; simpl; try exact I; exact (inv_put _ _ _ _ _ _ _ I P).
  - subst ok. injection E as <-. unfold remove. destruct (delete_at i true k s) as [[s1 [|]]|] eqn:P; simpl; try exact I; exact (inv_delete _ _ _ _ _ I P).
  - injection E as <-. unfold fetch. destruct (opened i s) as [h|] eqn:O; [|exact I]. exact (inv_hold _ _ _ I O).
  - injection E as <-. rewrite receive_eq. apply inv_dropping; [exact C|]. apply inv_set_store. exact I.
  - destruct (p_term (y_spu s i)) eqn:T; [discriminate|]. injection E as <-. destruct I as (A & U & H). split; [exact A|]. split.
    + intros a b La Lb. unfold leads in La, Lb. cbn [y_spu] in La, Lb.
      destruct (Z.eqb_spec a i); destruct (Z.eqb_spec b i); try congruence; simpl in La, Lb; congruence.
    + intros j o Tj. cbn [y_spu y_hist] in *. destruct (Z.eqb_spec j i); simpl in *; [|discriminate]. rewrite C. exact Logic.I.
  - injection E as <-. destruct I as (A & U & H). split; [exact A|]. split.
    + intros a b La Lb. unfold leads in La, Lb. cbn [y_spu] in La, Lb.
      destruct (Z.eqb_spec a i); [simpl in La; congruence|]. destruct (Z.eqb_spec b i); [simpl in Lb; congruence|]. exact (U a b La Lb).
    + intros j o Tj. cbn [y_spu y_hist] in *. destruct (Z.eqb_spec j i); simpl in *; [discriminate|]. exact (H j o Tj).
Qed.
Lemma inv_start : Inv start.
Proof. split; [intros k; reflexivity|]. split; [intros i j H; exfalso; apply H; reflexivity|intros i o H; discriminate H]. Qed.
Lemma orderly_inv s l s' : orderly s l s' -> Inv s -> Inv s'.
Proof. induction 1 as [|s m s1 l s2 C E O IH]; intros I; [exact I|]. apply IH. exact (step_inv _ _ _ C I E). Qed.
Lemma orderly_run s l s' : orderly s l s' -> run s l = Some s'.
Proof. induction 1 as [|s m s1 l s2 C E O IH]; simpl; [reflexivity|]. rewrite E. exact IH. Qed.
