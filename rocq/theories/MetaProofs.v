(** Proofs about the metadata stores. *)
From Coq Require Import Lia Permutation.
From Verif Require Import MetaModel MetaSpec.

Section Meta.
Context {K S T I : Type} (o : ops K S T I) (L : lawful o).
Notation object := (object K S T I).
Notation lsupdate := (lsupdate K S T I).
Notation store := (store K S T I).
Notation counted := (counted K S T I).
Notation dmap := (dmap K S T I).
Notation changes := (changes K S T I).

(** * Keys and lists of entries *)

Lemma keq_refl k : keq o k k = true.
Proof. apply (keq_ok o L). reflexivity. Qed.
Lemma keq_neq a b : keq o a b = false <-> a <> b.
Proof.
  split; intros H.
  - intros E. apply (keq_ok o L) in E. congruence.
  - destruct (keq o a b) eqn:E; [|reflexivity]. apply (keq_ok o L) in E. contradiction.
Qed.
Lemma keq_sym a b : keq o a b = keq o b a.
Proof.
  destruct (keq o a b) eqn:E.
  - apply (keq_ok o L) in E. subst. symmetry. apply keq_refl.
  - apply keq_neq in E. symmetry. apply keq_neq. congruence.
Qed.
Ltac kd a b := destruct (keq o a b) eqn:?; [match goal with H : keq o a b = true |- _ => apply (keq_ok o L) in H; subst end|
                                            match goal with H : keq o a b = false |- _ => apply keq_neq in H end].
Lemma kdec (a b : K) : {a = b} + {a <> b}.
Proof. destruct (keq o a b) eqn:E; [left|right]; [apply (keq_ok o L)|apply keq_neq]; exact E. Qed.

Section Assoc.
Context {A : Type}.
Implicit Types (l : list (K * A)) (a : A).
Lemma lookup_insert k a l x : lookup o x (insert o k a l) = if keq o x k then Some a else lookup o x l.
Proof.
  induction l as [|[k' a'] l IH]; [reflexivity|]. cbn.
  destruct (keq o k k') eqn:E; cbn.
  - apply (keq_ok o L) in E. subst k'. destruct (keq o x k); reflexivity.
  - rewrite IH. destruct (keq o x k') eqn:E'; [|reflexivity]. apply (keq_ok o L) in E'. subst x.
    rewrite keq_sym, E. reflexivity.
Qed.
Lemma lookup_erase k l x : lookup o x (erase o k l) = if keq o x k then None else lookup o x l.
Proof.
  induction l as [|[k' a'] l IH]; cbn; [destruct (keq o x k); reflexivity|].
  destruct (keq o k k') eqn:E; cbn.
  - fold (erase o k l). rewrite IH. apply (keq_ok o L) in E. subst k'. destruct (keq o x k); reflexivity.
  - fold (erase o k l). rewrite IH. destruct (keq o x k') eqn:E'; [|reflexivity]. apply (keq_ok o L) in E'. subst x.
    rewrite keq_sym, E. reflexivity.
Qed.
Lemma lookup_In k a l : lookup o k l = Some a -> In (k, a) l.
Proof.
  induction l as [|[k' a'] l IH]; cbn; [discriminate|]. destruct (keq o k k') eqn:E.
  - apply (keq_ok o L) in E. intros H. injection H as ->. subst. left. reflexivity.
  - intros H. right. exact (IH H).
Qed.
Lemma In_lookup k a l : NoDup (map fst l) -> In (k, a) l -> lookup o k l = Some a.
Proof.
  induction l as [|[k' a'] l IH]; cbn; [contradiction|]. intros N [H|H].
  - injection H as -> ->. rewrite keq_refl. reflexivity.
  - inversion_clear N as [|? ? H1 H2]. kd k k'.
    + destruct H1. apply (in_map fst) in H. exact H.
    + apply IH; assumption.
Qed.
Lemma lookup_None k l : lookup o k l = None <-> ~ In k (map fst l).
Proof.
  induction l as [|[k' a'] l IH]; cbn; [tauto|]. kd k k'.
  - split; [discriminate|]. intros H. destruct H. left. reflexivity.
  - rewrite IH. split; intros H; [|tauto]. intros [E|E]; [congruence|tauto].
Qed.
Lemma keys_insert k a l : forall x, In x (map fst (insert o k a l)) <-> x = k \/ In x (map fst l).
Proof.
  induction l as [|[k' a'] l IH]; cbn; intros x; [intuition congruence|]. kd k k'; cbn.
  - intuition congruence.
  - rewrite IH. tauto.
Qed.
Lemma nodup_insert k a l : NoDup (map fst l) -> NoDup (map fst (insert o k a l)).
Proof.
  induction l as [|[k' a'] l IH]; cbn; intros N; [constructor; [intros []|constructor]|].
  inversion_clear N as [|? ? H1 H2]. kd k k'; cbn.
  - constructor; assumption.
  - constructor; [|exact (IH H2)]. rewrite keys_insert. intros [E|E]; [congruence|contradiction].
Qed.
Lemma nodup_filter_keys (p : K * A -> bool) l : NoDup (map fst l) -> NoDup (map fst (filter p l)).
Proof.
  induction l as [|e l IH]; cbn; intros N; [constructor|]. inversion_clear N as [|? ? H1 H2].
  destruct (p e); cbn; [|exact (IH H2)]. constructor; [|exact (IH H2)].
  intros H. apply H1. apply in_map_iff in H. destruct H as (e' & E & H). apply filter_In in H.
  rewrite <- E. apply in_map. apply H.
Qed.
Lemma nodup_erase k l : NoDup (map fst l) -> NoDup (map fst (erase o k l)).
Proof. apply nodup_filter_keys. Qed.
End Assoc.

(** * Views *)

Lemma effect_same (a b : view object) u : same a b -> same (effect o a u) (effect o b u).
Proof. intros H k. unfold effect. rewrite (H k). reflexivity. Qed.
Lemma effects_same us : forall a b : view object, same a b -> same (effects o a us) (effects o b us).
Proof.
  induction us as [|u us IH]; intros a b H; [exact H|]. cbn. apply IH. apply effect_same. exact H.
Qed.
Lemma effects_app (s : view object) a b : effects o s (a ++ b) = effects o (effects o s a) b.
Proof. apply fold_left_app. Qed.
Lemma effects_snoc (s : view object) a u : effects o s (a ++ [u]) = effect o (effects o s a) u.
Proof. rewrite effects_app. reflexivity. Qed.

Lemma odec {A} (x : option A) : {x = None} + {x <> None}.
Proof. destruct x; [right; discriminate|left; reflexivity]. Qed.
Lemma eq_dec_of {A} (f : A -> A -> bool) (H : forall a b, f a b = true <-> a = b) (a b : A) : a = b \/ a <> b.
Proof.
  destruct (f a b) eqn:E; [left; apply H; exact E|right]. intros X. apply H in X. congruence.
Qed.
Lemma pdec (f : flag) (v w : object) : parts_of f v = parts_of f w \/ parts_of f v <> parts_of f w.
Proof.
  unfold parts_of.
  destruct (eq_dec_of _ (seq_ok o L) (o_spec v) (o_spec w)) as [A|A];
  destruct (eq_dec_of _ (teq_ok o L) (o_status v) (o_status w)) as [B|B];
  destruct (eq_dec_of _ (ieq_ok o L) (o_item v) (o_item w)) as [C|C];
  destruct (f_spec f), (f_status f), (f_meta f);
  try (left; congruence); right; congruence.
Qed.
Lemma opdec (f : flag) (v w : option object) :
  option_map (parts_of f) v = option_map (parts_of f) w \/ option_map (parts_of f) v <> option_map (parts_of f) w.
Proof.
  destruct v as [v|], w as [w|]; cbn; try (right; discriminate); [|left; reflexivity].
  destruct (pdec f v w) as [E|E]; [left; congruence|right; congruence].
Qed.

Lemma snoc_cases {A} (us : list A) u us1 x us2 : us ++ [u] = us1 ++ x :: us2 ->
  (us2 = [] /\ us1 = us /\ x = u) \/ exists us2', us2 = us2' ++ [u] /\ us = us1 ++ x :: us2'.
Proof.
  intros E. destruct us2 as [|y us2] using rev_ind.
  - left. apply app_inj_tail in E. intuition congruence.
  - right. exists us2. rewrite app_comm_cons, app_assoc in E. apply app_inj_tail in E. intuition congruence.
Qed.
Lemma deleted_snoc (s : view object) us u k v :
  deleted o s (us ++ [u]) k v <->
  deleted o s us k v \/ (effects o s us k = Some v /\ effects o s (us ++ [u]) k = None).
Proof.
  split.
  - intros (us1 & x & us2 & E & A & B). destruct (snoc_cases _ _ _ _ _ E) as [(-> & -> & ->)|(us2' & -> & ->)].
    + right. split; assumption.
    + left. exists us1, x, us2'. split; [reflexivity|]. split; assumption.
  - intros [(us1 & x & us2 & -> & A & B)|[A B]].
    + exists us1, x, (us2 ++ [u]). split; [rewrite <- app_assoc; reflexivity|]. split; assumption.
    + exists us, u, []. split; [reflexivity|]. split; assumption.
Qed.
Lemma altered_snoc f (s : view object) us u k :
  altered o f s (us ++ [u]) k <->
  altered o f s us k
  \/ option_map (parts_of f) (effects o s us k) <> option_map (parts_of f) (effects o s (us ++ [u]) k).
Proof.
  split.
  - intros (us1 & x & us2 & E & A). destruct (snoc_cases _ _ _ _ _ E) as [(-> & -> & ->)|(us2' & -> & ->)].
    + right. assumption.
    + left. exists us1, x, us2'. split; [reflexivity|]. assumption.
  - intros [(us1 & x & us2 & -> & A)|A].
    + exists us1, x, (us2 ++ [u]). split; [rewrite <- app_assoc; reflexivity|]. assumption.
    + exists us, u, []. split; [reflexivity|]. assumption.
Qed.
Lemma deleted_nil (s : view object) k v : ~ deleted o s [] k v.
Proof. intros (us1 & x & us2 & E & _). destruct us1; discriminate. Qed.
Lemma altered_nil f (s : view object) k : ~ altered o f s [] k.
Proof. intros (us1 & x & us2 & E & _). destruct us1; discriminate. Qed.
Lemma steady f (s : view object) us k : ~ altered o f s us k ->
  option_map (parts_of f) (effects o s us k) = option_map (parts_of f) (s k).
Proof.
  induction us as [|u us IH] using rev_ind; [reflexivity|]. rewrite altered_snoc. intros H.
  rewrite <- IH by tauto. symmetry. destruct (opdec f (effects o s us k) (effects o s (us ++ [u]) k)); [assumption|tauto].
Qed.
Lemma gone (s : view object) us k : s k <> None -> effects o s us k = None -> exists v, deleted o s us k v.
Proof.
  induction us as [|u us IH] using rev_ind; [contradiction|]. intros H H'.
  destruct (effects o s us k) as [v|] eqn:E.
  - exists v. apply deleted_snoc. right. split; assumption.
  - destruct (IH H eq_refl) as (v & D). exists v. apply deleted_snoc. left. exact D.
Qed.
Lemma deleted_same (a b : view object) us k v : same a b -> deleted o a us k v -> deleted o b us k v.
Proof.
  intros H (us1 & u & us2 & E & A & B). exists us1, u, us2. split; [exact E|].
  rewrite <- (effects_same us1 a b H), <- (effects_same _ a b H). split; assumption.
Qed.
Lemma same_sym {V} (a b : view V) : same (K := K) a b -> same b a.
Proof. intros H k. symmetry. apply H. Qed.
Lemma same_trans {V} (a b c : view V) : same (K := K) a b -> same b c -> same a c.
Proof. intros H H' k. rewrite (H k). apply H'. Qed.

(** The flags of one part *)
Definition just_spec := mkFlag true false false.
Definition just_status := mkFlag false true false.
Definition just_meta := mkFlag false false true.
Lemma altered_parts f (s : view object) us k : watches f = true ->
  (altered o f s us k <->
   (f_spec f = true /\ altered o just_spec s us k) \/ (f_status f = true /\ altered o just_status s us k)
   \/ (f_meta f = true /\ altered o just_meta s us k)).
Proof.
  intros W. induction us as [|u us IH] using rev_ind.
  - split; [intros H; destruct (altered_nil _ _ _ H)|]. intros [[_ H]|[[_ H]|[_ H]]]; destruct (altered_nil _ _ _ H).
  - rewrite !altered_snoc, IH. clear IH.
    assert (X : option_map (parts_of f) (effects o s us k) <> option_map (parts_of f) (effects o s (us ++ [u]) k) <->
      (f_spec f = true /\ option_map (parts_of just_spec) (effects o s us k) <> option_map (parts_of just_spec) (effects o s (us ++ [u]) k))
      \/ (f_status f = true /\ option_map (parts_of just_status) (effects o s us k) <> option_map (parts_of just_status) (effects o s (us ++ [u]) k))
      \/ (f_meta f = true /\ option_map (parts_of just_meta) (effects o s us k) <> option_map (parts_of just_meta) (effects o s (us ++ [u]) k))).
    { destruct (effects o s us k) as [v|], (effects o s (us ++ [u]) k) as [w|]; cbn.
      - unfold parts_of. cbn.
        destruct (eq_dec_of _ (seq_ok o L) (o_spec v) (o_spec w)) as [A|A];
        destruct (eq_dec_of _ (teq_ok o L) (o_status v) (o_status w)) as [B|B];
        destruct (eq_dec_of _ (ieq_ok o L) (o_item v) (o_item w)) as [C|C];
        destruct (f_spec f), (f_status f), (f_meta f); intuition congruence.
      - unfold watches in W. destruct (f_spec f), (f_status f), (f_meta f); cbn in W; try discriminate W;
          split; intros _; try discriminate;
          first [left; split; [reflexivity|discriminate]|right; left; split; [reflexivity|discriminate]|right; right; split; [reflexivity|discriminate]].
      - unfold watches in W. destruct (f_spec f), (f_status f), (f_meta f); cbn in W; try discriminate W;
          split; intros _; try discriminate;
          first [left; split; [reflexivity|discriminate]|right; left; split; [reflexivity|discriminate]|right; right; split; [reflexivity|discriminate]].
      - intuition congruence. }
    rewrite X. tauto.
Qed.

(** * One update *)

Definition mc (m : dmap) : view object := fun k => option_map d_inner (lookup o k (m_values m)).
Definition wf (m : dmap) : Prop :=
  NoDup (map fst (m_values m)) /\ forall k c, lookup o k (m_values m) = Some c -> o_key (d_inner c) = k.

Lemma object_eq (v w : object) : o_key v = o_key w -> o_spec v = o_spec w -> o_status v = o_status w -> o_item v = o_item w -> v = w.
Proof. destruct v, w. cbn. congruence. Qed.

(** what an update does: nothing, and nothing is to be done; or the object is
    replaced, or it is added *)
Inductive updated (m : dmap) (v : object) : dmap * option flag -> Prop :=
  | up_none d : mc m (o_key v) <> None -> same (effect o (mc m) (Mod v)) (mc m) ->
      d = mkFlag false false false -> updated m v (m, Some d)
  | up_mod c d : lookup o (o_key v) (m_values m) = Some c -> newer o (o_item (d_inner c)) (o_item v) = false ->
      (f_spec d = true <-> o_spec (d_inner c) <> o_spec v) -> (f_status d = true <-> o_status (d_inner c) <> o_status v) ->
      (f_meta d = true <-> o_item (d_inner c) <> o_item v) -> watches d = true ->
      updated m v (set_values m (insert o (o_key v)
              (mkCounted (if f_spec d then m_epoch m else d_spec c)
                         (if f_status d then m_epoch m else d_status c)
                         (if f_meta d then m_epoch m else d_meta c) v) (m_values m)), Some d)
  | up_add : lookup o (o_key v) (m_values m) = None ->
      updated m v (set_values m (insert o (o_key v) (mkCounted (m_epoch m) (m_epoch m) (m_epoch m) v) (m_values m)), None).

Lemma update_is m v : wf m -> updated m v (update o m v).
Proof.
  intros [N W]. unfold update. destruct (lookup o (o_key v) (m_values m)) as [c|] eqn:E; [|constructor; exact E].
  destruct (has_no_changes (diff o (d_inner c) v)) eqn:D.
  - apply up_none; [unfold mc; rewrite E; discriminate| |].
    + intros k. unfold effect. kd k (o_key v); [|reflexivity]. unfold mc. rewrite E. cbn. unfold diff, has_no_changes in D.
      destruct (newer o (o_item (d_inner c)) (o_item v)); [reflexivity|]. cbn in D. rewrite !negb_involutive in D.
      apply andb_prop in D. destruct D as [D D3]. apply andb_prop in D. destruct D as [D1 D2].
      apply (seq_ok o L) in D1. apply (teq_ok o L) in D2. apply (ieq_ok o L) in D3.
      f_equal. symmetry. apply object_eq; [rewrite (W _ _ E); reflexivity|assumption..].
    + unfold has_no_changes in D. destruct (diff o (d_inner c) v) as [x y z]. cbn in D.
      destruct x, y, z; try discriminate D. reflexivity.
  - assert (NN : newer o (o_item (d_inner c)) (o_item v) = false).
    { destruct (newer o (o_item (d_inner c)) (o_item v)) eqn:Y; [|reflexivity]. unfold diff in D. rewrite Y in D. discriminate D. }
    apply up_mod; [exact E|exact NN|..].
    + unfold diff. rewrite NN. cbn. destruct (seq o (o_spec (d_inner c)) (o_spec v)) eqn:X; cbn;
        [apply (seq_ok o L) in X; intuition congruence|]. split; [|reflexivity]. intros _ Y. apply (seq_ok o L) in Y. congruence.
    + unfold diff. rewrite NN. cbn. destruct (teq o (o_status (d_inner c)) (o_status v)) eqn:X; cbn;
        [apply (teq_ok o L) in X; intuition congruence|]. split; [|reflexivity]. intros _ Y. apply (teq_ok o L) in Y. congruence.
    + unfold diff. rewrite NN. cbn. destruct (ieq o (o_item (d_inner c)) (o_item v)) eqn:X; cbn;
        [apply (ieq_ok o L) in X; intuition congruence|]. split; [|reflexivity]. intros _ Y. apply (ieq_ok o L) in Y. congruence.
    + unfold has_no_changes in D. unfold watches. destruct (diff o (d_inner c) v) as [x y z]. cbn in *.
      destruct x, y, z; cbn in *; congruence.
Qed.

Lemma mc_insert m v a b d k : mc (set_values m (insert o (o_key v) (mkCounted a b d v) (m_values m))) k
  = if keq o k (o_key v) then Some v else mc m k.
Proof. unfold mc. cbn. rewrite lookup_insert. destruct (keq o k (o_key v)); reflexivity. Qed.
Lemma wf_insert m v a b d : wf m -> wf (set_values m (insert o (o_key v) (mkCounted a b d v) (m_values m))).
Proof.
  intros [N W]. split; cbn; [apply nodup_insert; exact N|]. intros k c. rewrite lookup_insert. kd k (o_key v).
  - intros H. injection H as <-. reflexivity.
  - apply W.
Qed.
Lemma update_wf m v : wf m -> wf (fst (update o m v)).
Proof.
  intros H. destruct (update_is m v H); cbn [fst]; [exact H|apply wf_insert; exact H..].
Qed.
Lemma update_mc m v : wf m -> same (mc (fst (update o m v))) (effect o (mc m) (Mod v)).
Proof.
  intros H k. destruct (update_is m v H) as [d A B _|c d A B _ _ _ _|A]; cbn [fst].
  - symmetry. apply B.
  - rewrite mc_insert. unfold effect. kd k (o_key v); [|reflexivity]. unfold mc at 1. rewrite A. cbn. rewrite B. reflexivity.
  - rewrite mc_insert. unfold effect. kd k (o_key v); [|reflexivity]. unfold mc at 1. rewrite A. reflexivity.
Qed.
Lemma update_frame m v : m_epoch (fst (update o m v)) = m_epoch m /\ m_fence (fst (update o m v)) = m_fence m
  /\ m_deleted (fst (update o m v)) = m_deleted m.
Proof.
  unfold update. destruct (lookup o (o_key v) (m_values m)) as [c|]; [|repeat split; reflexivity].
  destruct (has_no_changes _); repeat split; reflexivity.
Qed.

Lemma remove_wf m k : wf m -> wf (fst (remove o m k)).
Proof.
  intros [N W]. unfold remove. destruct (lookup o k (m_values m)) as [c|]; cbn; [|split; assumption].
  split; cbn; [apply nodup_erase; exact N|]. intros x c'. rewrite lookup_erase. destruct (keq o x k); [discriminate|apply W].
Qed.
Lemma remove_mc m k : same (mc (fst (remove o m k))) (effect o (mc m) (Delete k)).
Proof.
  intros x. unfold remove, effect. destruct (lookup o k (m_values m)) as [c|] eqn:E; cbn.
  - unfold mc. cbn. rewrite lookup_erase. destruct (keq o x k); reflexivity.
  - kd x k; [|reflexivity]. unfold mc. rewrite E. reflexivity.
Qed.
Lemma remove_frame m k : m_epoch (fst (remove o m k)) = m_epoch m /\ m_fence (fst (remove o m k)) = m_fence m.
Proof. unfold remove. destruct (lookup o k (m_values m)); split; reflexivity. Qed.

(** * The epochs *)

Definition below (e : Z) (c : counted) : Prop := d_spec c <= e /\ d_status c <= e /\ d_meta c <= e.
Definition bounded (e : Z) (m : dmap) : Prop :=
  (forall k c, lookup o k (m_values m) = Some c -> below e c)
  /\ Forall (fun c => below e c /\ d_status c = d_spec c /\ d_meta c = d_spec c) (m_deleted m).
Definition inv (m : dmap) : Prop := wf m /\ bounded (m_epoch m) m /\ m_fence m <= m_epoch m.

Lemma below_le e e' c : e <= e' -> below e c -> below e' c.
Proof. unfold below. lia. Qed.
Lemma bounded_le e e' m : e <= e' -> bounded e m -> bounded e' m.
Proof.
  intros H [A B]. split; [intros k c E; exact (below_le _ _ _ H (A _ _ E))|].
  eapply Forall_impl; [|exact B]. intros c [X Y]. split; [|exact Y]. exact (below_le _ _ _ H X).
Qed.
Lemma update_bounded m v : wf m -> bounded (m_epoch m) m -> bounded (m_epoch m) (fst (update o m v)).
Proof.
  intros H [A B]. destruct (update_is m v H) as [d|c d E|E]; cbn [fst]; [split; assumption|..]; (split; [|exact B]); cbn;
    intros k c'; rewrite lookup_insert; kd k (o_key v); try apply A; intros X; injection X as <-.
  - destruct (A _ _ E) as (P & Q & R). unfold below. cbn. destruct (f_spec d), (f_status d), (f_meta d); lia.
  - unfold below. cbn. lia.
Qed.
Lemma remove_bounded m k : bounded (m_epoch m) m -> bounded (m_epoch m) (fst (remove o m k)).
Proof.
  intros [A B]. unfold remove. destruct (lookup o k (m_values m)) as [c|] eqn:E; cbn; [|split; assumption].
  split; cbn.
  - intros x c'. rewrite lookup_erase. destruct (keq o x k); [discriminate|apply A].
  - apply Forall_app. split; [exact B|]. constructor; [|constructor]. unfold below. cbn. repeat split; lia.
Qed.

(** What the epochs say, since the epoch [e0] at which the store held [s]. *)
Definition tells (e0 : Z) (s : view object) (m : dmap) (us : list lsupdate) : Prop :=
  wf m /\ same (mc m) (effects o s us)
  /\ (forall k c, lookup o k (m_values m) = Some c ->
        (e0 < d_spec c <-> altered o just_spec s us k) /\ (e0 < d_status c <-> altered o just_status s us k)
        /\ (e0 < d_meta c <-> altered o just_meta s us k))
  /\ (forall k v, (exists c, In c (m_deleted m) /\ d_inner c = v /\ o_key v = k /\ e0 < d_spec c) <-> deleted o s us k v)
  /\ Forall (fun c => d_status c = d_spec c /\ d_meta c = d_spec c) (m_deleted m).

Lemma tells_epoch e0 s m us e : tells e0 s m us -> tells e0 s (set_epoch m e) us.
Proof. intros H. exact H. Qed.

Lemma tells_mod e0 s m us v : e0 < m_epoch m -> tells e0 s m us -> tells e0 s (fst (update o m v)) (us ++ [Mod v]).
Proof.
  intros E0 (W & C & A & D & F). split; [apply update_wf; exact W|].
  assert (C' : same (mc (fst (update o m v))) (effects o s (us ++ [Mod v]))).
  { rewrite effects_snoc. eapply same_trans; [apply update_mc; exact W|]. apply effect_same. exact C. }
  split; [exact C'|].
  assert (D' : forall k w, deleted o s (us ++ [Mod v]) k w <-> deleted o s us k w).
  { intros k w. rewrite deleted_snoc. split; [|tauto]. intros [H|[H H']]; [exact H|]. exfalso.
    rewrite effects_snoc in H'. unfold effect in H'. destruct (keq o k (o_key v)); [|congruence].
    rewrite H in H'. destruct (newer _ _ _); discriminate H'. }
  destruct (update_frame m v) as (_ & _ & ED). rewrite ED. split; [|split; [|exact F]].
  2:{ intros k w. rewrite D'. apply D. }
  clear D D' ED.
  destruct (update_is m v W) as [d P Q _|c d P Q DS DT DM DW|P]; cbn [fst] in *.
  - (* nothing *)
    intros k c E. rewrite !altered_snoc.
    assert (X : effects o s (us ++ [Mod v]) k = effects o s us k).
    { rewrite <- (C k), <- (C' k). reflexivity. }
    rewrite X. destruct (A k c E) as (A1 & A2 & A3). repeat split; intros; try tauto;
      match goal with H : _ \/ _ |- _ => destruct H; [tauto|congruence] end.
  - (* replaced *)
    intros k c' E. cbn in E. rewrite lookup_insert in E.
    assert (Y := C k). unfold mc in Y.
    assert (Z := C' k). rewrite mc_insert in Z.
    rewrite !altered_snoc. kd k (o_key v).
    + injection E as <-. rewrite P in Y. cbn in Y. destruct (A _ _ P) as (A1 & A2 & A3).
      rewrite <- Y, <- Z. unfold parts_of. cbn.
      assert (X1 : Some (Some (o_spec (d_inner c)), @None T, @None I) <> Some (Some (o_spec v), None, None) <-> f_spec d = true)
        by (rewrite DS; intuition congruence).
      assert (X2 : Some (@None S, Some (o_status (d_inner c)), @None I) <> Some (None, Some (o_status v), None) <-> f_status d = true)
        by (rewrite DT; intuition congruence).
      assert (X3 : Some (@None S, @None T, Some (o_item (d_inner c))) <> Some (None, None, Some (o_item v)) <-> f_meta d = true)
        by (rewrite DM; intuition congruence).
      rewrite X1, X2, X3. clear X1 X2 X3.
      destruct (f_spec d), (f_status d), (f_meta d); repeat split; intros; try tauto; try lia;
        repeat match goal with H : _ \/ _ |- _ => destruct H | H : false = true |- _ => discriminate H end; tauto.
    + rewrite E in Y. cbn in Y. unfold mc in Z. rewrite E in Z. cbn in Z. rewrite <- Y, <- Z.
      destruct (A _ _ E) as (A1 & A2 & A3). repeat split; intros; try tauto;
        match goal with H : _ \/ _ |- _ => destruct H; [tauto|congruence] end.
  - (* added *)
    intros k c' E. cbn in E. rewrite lookup_insert in E.
    assert (Y := C k). unfold mc in Y.
    assert (Z := C' k). rewrite mc_insert in Z.
    rewrite !altered_snoc. kd k (o_key v).
    + injection E as <-. rewrite P in Y. cbn in Y. rewrite <- Y, <- Z. cbn.
      repeat split; intros; try lia; right; discriminate.
    + rewrite E in Y. cbn in Y. unfold mc in Z. rewrite E in Z. cbn in Z. rewrite <- Y, <- Z.
      destruct (A _ _ E) as (A1 & A2 & A3). repeat split; intros; try tauto;
        match goal with H : _ \/ _ |- _ => destruct H; [tauto|congruence] end.
Qed.

Lemma tells_delete e0 s m us k0 : e0 < m_epoch m -> tells e0 s m us -> tells e0 s (fst (remove o m k0)) (us ++ [Delete k0]).
Proof.
  intros E0 (W & C & A & D & F). split; [apply remove_wf; exact W|].
  assert (C' : same (mc (fst (remove o m k0))) (effects o s (us ++ [Delete k0]))).
  { rewrite effects_snoc. eapply same_trans; [apply remove_mc|]. apply effect_same. exact C. }
  split; [exact C'|].
  assert (X : forall k, effects o s (us ++ [Delete k0]) k = if keq o k k0 then None else effects o s us k).
  { intros k. rewrite effects_snoc. reflexivity. }
  split; [|split].
  - intros k c E. rewrite !altered_snoc, X.
    assert (E' : lookup o k (m_values m) = Some c /\ (k <> k0 \/ effects o s us k = None)).
    { unfold remove in E. destruct (lookup o k0 (m_values m)) as [c0|] eqn:P; cbn in E.
      - rewrite lookup_erase in E. kd k k0; [discriminate|]. split; [exact E|left; assumption].
      - split; [exact E|]. left. intros ->. congruence. }
    destruct E' as [E' [N|N]].
    + apply keq_neq in N. rewrite N. destruct (A _ _ E') as (A1 & A2 & A3). repeat split; intros; try tauto;
        match goal with H : _ \/ _ |- _ => destruct H; [tauto|congruence] end.
    + exfalso. rewrite <- (C k) in N. unfold mc in N. rewrite E' in N. discriminate N.
  - intros k v. rewrite deleted_snoc, X, <- D. unfold remove.
    destruct (lookup o k0 (m_values m)) as [c0|] eqn:P; cbn.
    + assert (Y := C k0). unfold mc in Y. rewrite P in Y. cbn in Y. split.
      * intros (c & H & H1 & H2 & H3). apply in_app_iff in H. destruct H as [H|[H|[]]].
        -- left. exists c. tauto.
        -- right. subst c. cbn in *. destruct W as [_ W]. assert (Q := W _ _ P). subst v. rewrite <- H2, Q, <- Y, keq_refl. split; reflexivity.
      * intros [(c & H & H1 & H2 & H3)|[H H']].
        -- exists c. split; [apply in_app_iff; left; exact H|tauto].
        -- kd k k0; [|congruence]. exists (mkCounted (m_epoch m) (m_epoch m) (m_epoch m) (d_inner c0)).
           split; [apply in_app_iff; right; left; reflexivity|]. cbn. split; [congruence|]. split; [|exact E0].
           destruct W as [_ W]. assert (Q := W _ _ P). congruence.
    + split; [tauto|]. intros [H|[H H']]; [exact H|]. exfalso. kd k k0; [|congruence].
      rewrite <- (C k0) in H. unfold mc in H. rewrite P in H. discriminate H.
  - unfold remove. destruct (lookup o k0 (m_values m)) as [c0|]; cbn; [|exact F].
    apply Forall_app. split; [exact F|]. constructor; [split; reflexivity|constructor].
Qed.

Definition apply_to (m : dmap) (u : lsupdate) : dmap := fst (apply_item o (m, zero) u).
Lemma apply_item_fst m t u : fst (apply_item o (m, t) u) = apply_to m u.
Proof. unfold apply_to, apply_item. destruct u as [v|k]; cbn; [destruct (update o m v); reflexivity|reflexivity]. Qed.
Lemma apply_to_eq m u : apply_to m u = match u with Mod v => fst (update o m v) | Delete k => fst (remove o m k) end.
Proof. unfold apply_to, apply_item. destruct u as [v|k]; cbn; [destruct (update o m v); reflexivity|reflexivity]. Qed.
Lemma apply_items_fst us : forall m t, fst (fold_left (apply_item o) us (m, t)) = fold_left apply_to us m.
Proof.
  induction us as [|u us IH]; intros m t; [reflexivity|]. cbn [fold_left].
  assert (H := apply_item_fst m t u). destruct (apply_item o (m, t) u) as [m' t']. cbn [fst] in H. subst m'. apply IH.
Qed.
Lemma apply_to_frame m u : m_epoch (apply_to m u) = m_epoch m /\ m_fence (apply_to m u) = m_fence m.
Proof.
  rewrite apply_to_eq. destruct u as [v|k]; [destruct (update_frame m v) as (A & B & _); split; assumption|apply remove_frame].
Qed.
Lemma apply_all_frame us : forall m, m_epoch (fold_left apply_to us m) = m_epoch m /\ m_fence (fold_left apply_to us m) = m_fence m.
Proof.
  induction us as [|u us IH]; intros m; [split; reflexivity|]. cbn [fold_left]. destruct (IH (apply_to m u)) as [A B].
  destruct (apply_to_frame m u) as [A' B']. split; congruence.
Qed.
Lemma apply_all_inv us : forall m, wf m -> bounded (m_epoch m) m ->
  wf (fold_left apply_to us m) /\ bounded (m_epoch m) (fold_left apply_to us m).
Proof.
  induction us as [|u us IH]; intros m W B; [split; assumption|]. cbn [fold_left].
  destruct (apply_to_frame m u) as [A _]. rewrite <- A. apply IH.
  - rewrite apply_to_eq. destruct u; [apply update_wf|apply remove_wf]; exact W.
  - rewrite A, apply_to_eq. destruct u; [apply update_bounded|apply remove_bounded]; assumption.
Qed.
Lemma apply_all_tells e0 s us : forall m us0, e0 < m_epoch m -> tells e0 s m us0 -> tells e0 s (fold_left apply_to us m) (us0 ++ us).
Proof.
  induction us as [|u us IH]; intros m us0 E H; cbn [fold_left]; [rewrite app_nil_r; exact H|].
  replace (us0 ++ u :: us) with ((us0 ++ [u]) ++ us) by (rewrite <- app_assoc; reflexivity).
  destruct (apply_to_frame m u) as [A _]. apply IH; [lia|].
  rewrite apply_to_eq. destruct u; [apply tells_mod|apply tells_delete]; assumption.
Qed.
Lemma apply_all_mc us : forall m, wf m -> same (mc (fold_left apply_to us m)) (effects o (mc m) us).
Proof.
  induction us as [|u us IH]; intros m W; [intros k; reflexivity|]. cbn [fold_left effects].
  assert (W' : wf (apply_to m u)) by (rewrite apply_to_eq; destruct u; [apply update_wf|apply remove_wf]; exact W).
  eapply same_trans; [exact (IH _ W')|]. apply effects_same. rewrite apply_to_eq.
  destruct u; [apply update_mc; exact W|apply remove_mc].
Qed.

(** * Counting *)

Definition total (t : tally) : Z := t_add t + t_spec t + t_status t + t_meta t + t_delete t.
Definition nonneg (t : tally) : Prop := 0 <= t_add t /\ 0 <= t_spec t /\ 0 <= t_status t /\ 0 <= t_meta t /\ 0 <= t_delete t.
Lemma all_zero_total t : nonneg t -> (all_zero t = true <-> total t = 0).
Proof.
  unfold nonneg, all_zero, total. intros H. rewrite !andb_true_iff, !Z.eqb_eq. lia.
Qed.
(** the item changes nothing, and is not a delete *)
Definition no_op (s : view object) (u : lsupdate) : Prop :=
  match u with Mod _ => same (effect o s u) s | Delete _ => False end.
Lemma count_item m t u : wf m -> nonneg t ->
  nonneg (snd (apply_item o (m, t) u))
  /\ ((no_op (mc m) u /\ total (snd (apply_item o (m, t) u)) = total t /\ apply_to m u = m)
      \/ (~ no_op (mc m) u /\ total t < total (snd (apply_item o (m, t) u)))).
Proof.
  intros W H. rewrite apply_to_eq. unfold apply_item. cbn [fst snd]. destruct u as [v|k].
  - destruct (update_is m v W) as [d P Q ->|c d P Q DS DT DM DW|P]; cbn [fst snd count_update f_spec f_status f_meta one].
    + unfold nonneg, total in *. cbn. split; [lia|]. left. split; [exact Q|]. split; [lia|reflexivity].
    + unfold watches in DW.
      assert (X : ~ no_op (mc m) (Mod v)).
      { intros X. specialize (X (o_key v)). unfold effect in X. rewrite keq_refl in X. unfold mc in X. rewrite P in X. cbn in X.
        rewrite Q in X. injection X as X. subst v.
        destruct (f_spec d), (f_status d), (f_meta d); try discriminate DW; intuition congruence. }
      unfold nonneg, total in *. cbn.
      destruct (f_spec d), (f_status d), (f_meta d); try discriminate DW; cbn; (split; [lia|right; split; [exact X|lia]]).
    + assert (X : ~ no_op (mc m) (Mod v)).
      { intros X. specialize (X (o_key v)). unfold effect in X. rewrite keq_refl in X. unfold mc in X. rewrite P in X. discriminate X. }
      unfold nonneg, total in *. cbn. split; [lia|right; split; [exact X|lia]].
  - unfold nonneg, total in *. cbn. split; [lia|right; split; [tauto|lia]].
Qed.
Lemma count_items us : forall m t, wf m -> nonneg t ->
  let r := fold_left (apply_item o) us (m, t) in
  nonneg (snd r) /\ total t <= total (snd r)
  /\ (total (snd r) = total t <-> (idle o (mc m) us /\ forall k, ~ In (Delete k) us))
  /\ (total (snd r) = total t -> fold_left apply_to us m = m).
Proof.
  induction us as [|u us IH]; intros m t W H; cbn zeta; cbn [fold_left].
  - cbn. split; [exact H|]. split; [lia|]. split; [|reflexivity]. split; [|reflexivity]. intros _. split; [|tauto].
    intros us1 us2 E. destruct us1; [|discriminate]. intros k. reflexivity.
  - assert (W' : wf (apply_to m u)) by (rewrite apply_to_eq; destruct u; [apply update_wf|apply remove_wf]; exact W).
    destruct (count_item m t u W H) as [N N'].
    assert (E := apply_item_fst m t u). destruct (apply_item o (m, t) u) as [m' t']. cbn [fst snd] in *. subst m'.
    destruct (IH _ t' W' N) as (A & B & C & D). clear IH. split; [exact A|].
    destruct N' as [(X & Y & Z)|(X & Y)].
    + rewrite Z in *. split; [lia|]. rewrite Y in *. split; [|exact D]. rewrite C. split.
      * intros [P Q]. destruct u as [v|k]; [|destruct X]. split.
        -- intros us1 us2 E. destruct us1 as [|u1 us1]; [intros k; reflexivity|]. injection E as <- E.
           cbn. eapply same_trans; [apply effects_same; exact X|]. exact (P _ _ E).
        -- intros k [F|F]; [discriminate|exact (Q k F)].
      * intros [P Q]. split; [|intros k F; apply (Q k); right; exact F].
        intros us1 us2 E. assert (P' := P (u :: us1) us2). cbn in P'. rewrite E in P'. specialize (P' eq_refl).
        eapply same_trans; [|exact P']. apply effects_same. apply same_sym.
        destruct u as [v|k]; [exact X|destruct X].
    + split; [lia|]. split; [|lia]. split; [lia|]. intros [P Q]. exfalso. apply X. destruct u as [v|k].
      * exact (P [Mod v] us eq_refl).
      * apply (Q k). left. reflexivity.
Qed.

(** * Calls *)

Definition sinv (st : store) : Prop := inv (st_map st) /\ st_change st = m_epoch (st_map st).

Lemma set_epoch_set (m : dmap) a b : set_epoch (set_epoch m a) b = set_epoch m b.
Proof. reflexivity. Qed.
Lemma set_epoch_id (m : dmap) : set_epoch m (m_epoch m) = m.
Proof. destruct m. reflexivity. Qed.

Inductive applied (st : store) (us : list lsupdate) : store * option (Z * tally) -> Prop :=
  | ap_none : idle o (contents o st) us -> (forall k, ~ In (Delete k) us) -> applied st us (st, None)
  | ap_some t : ~ (idle o (contents o st) us /\ forall k, ~ In (Delete k) us) ->
      applied st us (mkStore (fold_left apply_to us (set_epoch (st_map st) (m_epoch (st_map st) + 1))) (m_epoch (st_map st) + 1),
                     Some (m_epoch (st_map st) + 1, t)).
Lemma apply_is st us : sinv st -> applied st us (apply_changes o st us).
Proof.
  intros [(W & B & F) CH]. unfold apply_changes. set (m := st_map st) in *. set (m' := set_epoch m (m_epoch m + 1)).
  assert (W' : wf m') by exact W.
  destruct (count_items us m' zero W') as (N & Q & X & Y); [unfold nonneg; cbn; lia|]. cbn zeta in *.
  assert (E := apply_items_fst us m' zero). destruct (fold_left (apply_item o) us (m', zero)) as [m1 t]. cbn [fst snd] in *.
  change (total zero) with 0 in *. destruct (all_zero t) eqn:Z.
  - apply all_zero_total in Z; [|exact N]. rewrite (Y Z) in E. subst m1.
    replace (mkStore _ _) with st; [constructor; apply X; exact Z|].
    unfold m'. rewrite set_epoch_set. cbn [m_epoch set_epoch]. replace (m_epoch m + 1 - 1) with (m_epoch m) by lia.
    rewrite set_epoch_id. destruct st. reflexivity.
  - subst m1. destruct (apply_all_frame us m') as [P _]. rewrite P. cbn [m' set_epoch m_epoch]. apply ap_some.
    intros H. apply X in H. apply all_zero_total in H; [|exact N]. congruence.
Qed.
Lemma apply_sinv st us : sinv st -> sinv (fst (apply_changes o st us)).
Proof.
  intros H. destruct (apply_is st us H) as [A B|t A]; cbn [fst]; [exact H|].
  destruct H as [(W & B & F) CH]. set (m := st_map st) in *.
  destruct (apply_all_frame us (set_epoch m (m_epoch m + 1))) as [P Q].
  destruct (apply_all_inv us (set_epoch m (m_epoch m + 1))) as [W' B']; [exact W|apply (bounded_le (m_epoch m)); [cbn; lia|exact B]|].
  cbn [set_epoch m_epoch m_fence] in P, Q, B'.
  split; [|cbn; symmetry; exact P]. cbn [st_map]. split; [exact W'|]. rewrite P, Q. split; [exact B'|lia].
Qed.
Lemma idle_same (a : view object) us : idle o a us -> same (effects o a us) a.
Proof. intros H. apply (H us []). rewrite app_nil_r. reflexivity. Qed.
Lemma apply_contents st us : sinv st -> same (contents o (fst (apply_changes o st us))) (effects o (contents o st) us).
Proof.
  intros H. destruct (apply_is st us H) as [A B|t A]; cbn [fst].
  - apply same_sym. apply idle_same. exact A.
  - destruct H as [(W & _) _]. exact (apply_all_mc us (set_epoch (st_map st) (m_epoch (st_map st) + 1)) W).
Qed.

(** full syncs *)
Lemma sync_items_fst vs : forall m t ks,
  let r := fold_left (sync_item o) vs (m, t, ks) in
  fst (fst r) = fold_left apply_to (map Mod vs) m
  /\ snd r = filter (fun k => negb (named o k vs)) ks.
Proof.
  induction vs as [|v vs IH]; intros m t ks; cbn zeta; cbn [fold_left map].
  - split; [reflexivity|]. cbn. induction ks; [reflexivity|]. cbn. congruence.
  - cbn [sync_item]. assert (E := apply_to_eq m (Mod v)). cbn in E. destruct (update o m v) as [m' r]. cbn [fst] in E. subst m'.
    destruct (IH (apply_to m (Mod v)) (count_update t r) (filter (fun k => negb (keq o (o_key v) k)) ks)) as [A B].
    split; [exact A|]. rewrite B. clear - L. induction ks as [|k ks IH]; [reflexivity|]. cbn [filter].
    assert (X : named o k (v :: vs) = keq o (o_key v) k || named o k vs) by (cbn; rewrite (keq_sym k (o_key v)); reflexivity).
    rewrite X. destruct (keq o (o_key v) k); cbn [negb orb filter]; [exact IH|].
    destruct (named o k vs); cbn [negb]; rewrite IH; reflexivity.
Qed.
Lemma sync_delete_fst m t k : fst (sync_delete o (m, t) k) = fst (remove o m k).
Proof. unfold sync_delete. cbn. destruct (remove o m k) as [m' [c|]]; reflexivity. Qed.
Lemma sync_deletes ks : forall m t, let r := fst (fold_left (sync_delete o) ks (m, t)) in
  (wf m -> wf r) /\ (bounded (m_epoch m) m -> bounded (m_epoch m) r) /\ m_epoch r = m_epoch m /\ m_fence r = m_fence m
  /\ forall k, mc r k = if existsb (fun x => keq o k x) ks then None else mc m k.
Proof.
  induction ks as [|k ks IH]; intros m t; cbn zeta; cbn [fold_left].
  - cbn. intuition.
  - assert (E := sync_delete_fst m t k). destruct (sync_delete o (m, t) k) as [m' t']. cbn [fst] in E.
    destruct (remove_frame m k) as [P Q]. rewrite <- E in P, Q.
    destruct (IH m' t') as (A & B & C & D & F). cbn zeta in *. rewrite P in *. split; [|split; [|split; [exact C|split; [congruence|]]]].
    + intros H. apply A. rewrite E. apply remove_wf. exact H.
    + intros H. apply B. rewrite E. apply remove_bounded. exact H.
    + intros x. rewrite F, E. rewrite (remove_mc m k x). cbn. unfold effect. destruct (keq o x k); [|reflexivity].
      destruct (existsb _ ks); reflexivity.
Qed.
Lemma mods_other vs : forall (s : view object) k, named o k vs = false -> effects o s (map Mod vs) k = s k.
Proof.
  induction vs as [|v vs IH]; intros s k; [reflexivity|]. cbn [named existsb map]. intros H. apply orb_false_iff in H. destruct H as [H H'].
  cbn. fold (effects o (effect o s (Mod v)) (map Mod vs)). rewrite (IH _ _ H'). unfold effect. rewrite H. reflexivity.
Qed.

Lemma sync_is st vs : sinv st -> let st' := fst (sync_all o st vs) in
  sinv st' /\ m_epoch (st_map st') = m_epoch (st_map st) + 1 /\ m_fence (st_map st') = m_epoch (st_map st') /\ m_deleted (st_map st') = []
  /\ same (contents o st') (full_effect o (contents o st) vs).
Proof.
  intros [(W & B & F) CH]. unfold sync_all. set (m := st_map st) in *. set (m' := set_epoch m (m_epoch m + 1)).
  destruct (sync_items_fst vs m' zero (map fst (m_values m))) as [E1 E2]. cbn zeta in *.
  destruct (fold_left (sync_item o) vs _) as [[m1 t1] ks]. cbn [fst snd] in *.
  assert (W' : wf m') by exact W.
  assert (B' : bounded (m_epoch m') m') by (apply (bounded_le (m_epoch m)); [cbn; lia|exact B]).
  destruct (apply_all_frame (map Mod vs) m') as [P Q].
  destruct (apply_all_inv (map Mod vs) m' W' B') as [W1 B1]. rewrite <- E1 in *.
  assert (D := sync_deletes ks m1 t1). cbn zeta in D. destruct (fold_left (sync_delete o) ks (m1, t1)) as [m2 t2]. cbn [fst snd] in *.
  destruct D as (D1 & D2 & D3 & D4 & D5).
  assert (EP : m_epoch m2 = m_epoch m + 1) by (rewrite D3, P; reflexivity).
  cbn [st_map st_change mark_fence m_epoch m_fence m_deleted].
  split; [|split; [exact EP|split; [reflexivity|split; [reflexivity|]]]].
  - split; [|reflexivity]. split; [exact (D1 W1)|]. cbn [st_map m_epoch m_fence m_values m_deleted]. split; [|apply Z.le_refl].
    assert (X : bounded (m_epoch m2) m2) by (rewrite D3; apply D2; rewrite P; exact B1).
    split; [exact (proj1 X)|constructor].
  - intros k. unfold contents. cbn [st_map mark_fence m_values]. change (mc m2 k = full_effect o (mc m) vs k). rewrite D5. unfold full_effect.
    assert (X : mc m1 k = effects o (mc m) (map Mod vs) k) by (rewrite E1; exact (apply_all_mc (map Mod vs) m' W' k)).
    rewrite X. subst ks. destruct (named o k vs) eqn:NM.
    + replace (existsb _ _) with false; [reflexivity|]. symmetry. apply not_true_is_false. rewrite existsb_exists.
      intros (x & H & H'). apply (keq_ok o L) in H'. subst x. apply filter_In in H. rewrite NM in H. destruct H. discriminate.
    + rewrite (mods_other vs (mc m) k NM). destruct (existsb _ _) eqn:EX; [reflexivity|].
      destruct (mc m k) as [v|] eqn:MK; [|reflexivity]. exfalso. apply not_true_iff_false in EX. apply EX. apply existsb_exists.
      exists k. split; [|apply keq_refl]. apply filter_In. rewrite NM. split; [|reflexivity].
      unfold mc in MK. destruct (lookup o k (m_values m)) as [c|] eqn:LK; [|discriminate].
      apply lookup_In in LK. apply (in_map fst) in LK. exact LK.
Qed.

Lemma new_sinv : sinv new_store.
Proof.
  split; [|reflexivity]. split; [split; [constructor|discriminate]|]. cbn. split; [|lia]. split; [discriminate|constructor].
Qed.
Lemma call_sinv st c : sinv st -> sinv (do_call o st c).
Proof. intros H. destruct c; [apply apply_sinv; exact H|apply (sync_is st vs H)]. Qed.
Lemma calls_sinv cs : forall st, sinv st -> sinv (do_calls o st cs).
Proof. induction cs as [|c cs IH]; intros st H; [exact H|]. cbn. apply IH. apply call_sinv. exact H. Qed.
Lemma reachable_sinv st : reachable o st -> sinv st.
Proof. intros (cs & ->). apply calls_sinv. exact new_sinv. Qed.
Lemma call_contents st c : sinv st -> same (contents o (do_call o st c)) (call_effect o (contents o st) c).
Proof. intros H. destruct c; [apply apply_contents; exact H|apply (sync_is st vs H)]. Qed.

(** A history without a full sync. *)
Lemma apply_tells e0 s st us0 us : sinv st -> e0 <= m_epoch (st_map st) -> tells e0 s (st_map st) us0 ->
  tells e0 s (st_map (fst (apply_changes o st us))) (us0 ++ us).
Proof.
  intros H E R. destruct (apply_is st us H) as [A B|t A]; cbn [fst st_map].
  - (* nothing changed *)
    destruct H as [(W & BD & F) CH]. set (m := st_map st) in *.
    assert (X := apply_all_tells e0 s us (set_epoch m (m_epoch m + 1)) us0). cbn in X. specialize (X ltac:(lia) R).
    assert (Y : fold_left apply_to us (set_epoch m (m_epoch m + 1)) = set_epoch m (m_epoch m + 1)).
    { destruct (count_items us (set_epoch m (m_epoch m + 1)) zero W) as (_ & _ & P & Q); [unfold nonneg; cbn; lia|].
      apply Q. apply P. split; assumption. }
    rewrite Y in X. rewrite <- (set_epoch_id m). exact X.
  - apply apply_all_tells; [cbn; lia|exact R].
Qed.
Lemma calls_tells e0 s cs : forall st us0 us, sinv st -> e0 <= m_epoch (st_map st) -> tells e0 s (st_map st) us0 ->
  updates_of cs = Some us ->
  let st' := do_calls o st cs in
  tells e0 s (st_map st') (us0 ++ us) /\ m_epoch (st_map st) <= m_epoch (st_map st') /\ m_fence (st_map st') = m_fence (st_map st).
Proof.
  induction cs as [|c cs IH]; intros st us0 us H E R U; cbn zeta.
  - injection U as <-. rewrite app_nil_r. split; [exact R|]. cbn. split; [lia|reflexivity].
  - destruct c as [us1|vs]; [|discriminate]. cbn [updates_of] in U. destruct (updates_of cs) as [us2|] eqn:U2; [|discriminate].
    injection U as <-. cbn [do_calls fold_left do_call]. fold (do_calls o (fst (apply_changes o st us1)) cs).
    assert (H' := apply_sinv st us1 H).
    assert (R' := apply_tells e0 s st us0 us1 H E R).
    assert (M : m_epoch (st_map st) <= m_epoch (st_map (fst (apply_changes o st us1))) /\ m_fence (st_map (fst (apply_changes o st us1))) = m_fence (st_map st)).
    { destruct (apply_is st us1 H); cbn [fst st_map]; [split; [lia|reflexivity]|].
      destruct (apply_all_frame us1 (set_epoch (st_map st) (m_epoch (st_map st) + 1))) as [P Q]. rewrite P, Q. cbn. split; [lia|reflexivity]. }
    destruct M as [M M'].
    destruct (IH _ (us0 ++ us1) us2 H' ltac:(lia) R' eq_refl) as (A & B & C). rewrite app_assoc. split; [exact A|]. split; [lia|congruence].
Qed.
Lemma tells_start st : sinv st -> tells (m_epoch (st_map st)) (contents o st) (st_map st) [].
Proof.
  intros [(W & (B1 & B2) & F) CH]. split; [exact W|]. split; [intros k; reflexivity|]. split; [|split].
  - intros k c E. destruct (B1 _ _ E) as (P & Q & R).
    repeat split; intros X; try lia; destruct (altered_nil _ _ _ X).
  - intros k v. split; [|intros X; destruct (deleted_nil _ _ _ X)]. intros (c & I1 & _ & _ & X). exfalso.
    rewrite Forall_forall in B2. destruct (B2 _ I1) as ((P & _) & _). lia.
  - eapply Forall_impl; [|exact B2]. intros c [_ X]. exact X.
Qed.
End Meta.
