(** The claims about the metadata stores and their watchers. *)
From Coq Require Import Lia Permutation.
From Verif Require Import MetaModel MetaSpec MetaProofs.

Section Meta.
Context {K S T I : Type} (o : ops K S T I) (L : lawful o).
Notation object := (object K S T I).
Notation lsupdate := (lsupdate K S T I).
Notation store := (store K S T I).
Notation changes := (changes K S T I).
Ltac kd a b := destruct (keq o a b) eqn:?; [match goal with H : keq o a b = true |- _ => apply (keq_ok o L) in H; subst end|
                                            match goal with H : keq o a b = false |- _ => apply (keq_neq o L) in H end].

(** * Finding an object by its key *)

Section Find.
Context {V : Type} (key : V -> K).
Implicit Types l : list V.
Lemma find_In k l v : NoDup (map key l) -> (find (fun v => keq o k (key v)) l = Some v <-> In v l /\ key v = k).
Proof.
  induction l as [|x l IH]; cbn; intros N; [split; [discriminate|tauto]|]. inversion_clear N as [|? ? H1 H2]. kd k (key x).
  - split; [intros E; injection E as <-; tauto|]. intros [[E|E] E']; [congruence|]. destruct H1. rewrite <- E'. apply in_map. exact E.
  - rewrite (IH H2). split; [tauto|]. intros [[E|E] E']; [congruence|tauto].
Qed.
Lemma find_none k l : find (fun v => keq o k (key v)) l = None <-> ~ In k (map key l).
Proof.
  induction l as [|x l IH]; cbn; [tauto|]. kd k (key x); [split; [discriminate|tauto]|]. rewrite IH. split; [|tauto]. intros H [E|E]; [congruence|tauto].
Qed.
Lemma find_perm k l l' : NoDup (map key l) -> Permutation l l' ->
  find (fun v => keq o k (key v)) l' = find (fun v => keq o k (key v)) l.
Proof.
  intros N P. destruct (find (fun v => keq o k (key v)) l) as [v|] eqn:E.
  - apply find_In in E; [|exact N]. apply find_In; [exact (Permutation_NoDup (Permutation_map key P) N)|].
    destruct E as [E E']. split; [exact (Permutation_in _ P E)|exact E'].
  - apply find_none. apply find_none in E. intros H. apply E. exact (Permutation_in _ (Permutation_sym (Permutation_map key P)) H).
Qed.
Lemma exists_In k l : existsb (fun v => keq o k (key v)) l = true <-> In k (map key l).
Proof.
  rewrite existsb_exists, in_map_iff. split; intros (v & A & B); exists v.
  - apply (keq_ok o L) in B. split; [congruence|exact A].
  - split; [exact B|]. apply (keq_ok o L). congruence.
Qed.
Lemma exists_perm k l l' : Permutation l l' -> existsb (fun v => keq o k (key v)) l' = existsb (fun v => keq o k (key v)) l.
Proof.
  intros P. apply eq_true_iff_eq. rewrite !exists_In. split; apply Permutation_in; [apply Permutation_sym|]; apply Permutation_map; exact P.
Qed.
End Find.

(** * What is reported *)

Lemma none_after f (m : dmap K S T I) : inv o m ->
  filter (fun x => after f (m_epoch m) (snd x)) (m_values m) = [] /\ filter (after f (m_epoch m)) (m_deleted m) = [].
Proof.
  intros ((N & _) & (A & B) & _).
  assert (X : forall c : counted K S T I, below (m_epoch m) c -> after f (m_epoch m) c = false).
  { intros c (P & Q & R). unfold after. replace (m_epoch m <? d_spec c) with false by lia.
    replace (m_epoch m <? d_status c) with false by lia. replace (m_epoch m <? d_meta c) with false by lia.
    rewrite !andb_false_r. reflexivity. }
  split.
  - assert (A' : forall e, In e (m_values m) -> below (m_epoch m) (snd e)).
    { intros [k c] H. apply (A k). exact (In_lookup o L k c _ N H). }
    clear A N. induction (m_values m) as [|e l IH]; [reflexivity|]. cbn. rewrite X by (apply A'; left; reflexivity).
    apply IH. intros e' H. apply A'. right. exact H.
  - induction (m_deleted m) as [|c l IH]; [reflexivity|]. inversion_clear B as [|? ? H H']. cbn. rewrite X by apply H. exact (IH H').
Qed.
Lemma since_formula f (m : dmap K S T I) e0 : inv o m -> m_fence m <= e0 -> 
  changes_since f m e0 = mkChanges (m_epoch m)
    (Changes (map (fun x => d_inner (snd x)) (filter (fun x => after f e0 (snd x)) (m_values m))) (map d_inner (filter (after f e0) (m_deleted m)))).
Proof.
  intros H F. unfold changes_since. replace (e0 <? m_fence m) with false by lia. destruct (e0 =? m_epoch m) eqn:E; [|reflexivity].
  apply Z.eqb_eq in E. subst e0. destruct (none_after f m H) as [A B]. rewrite A, B. reflexivity.
Qed.

Lemma reported f st cs us : sinv o st -> watches f = true -> updates_of cs = Some us ->
  let st' := do_calls o st cs in
  exists ups dels, fst (look f st' (m_epoch (st_map st))) = mkChanges (m_epoch (st_map st')) (Changes ups dels)
    /\ NoDup (map o_key ups)
    /\ (forall v, In v ups <-> contents o st' (o_key v) = Some v /\ altered o f (contents o st) us (o_key v))
    /\ (forall v, In v dels <-> deleted o (contents o st) us (o_key v) v)
    /\ same (contents o st') (effects o (contents o st) us).
Proof.
  intros H W U st'. set (e0 := m_epoch (st_map st)).
  destruct (calls_tells o L e0 (contents o st) cs st [] us H (Z.le_refl _) (tells_start o st H) U) as (R & M & F).
  fold st' in R, M, F. cbn [app] in R. assert (H' : sinv o st') by (apply (calls_sinv o L); exact H).
  destruct H as [(W0 & B0 & F0) CH0]. destruct H' as [HI' CH'].
  unfold look. cbn [fst]. rewrite (since_formula f (st_map st') e0 HI') by (unfold e0; lia).
  eexists. eexists. split; [reflexivity|]. destruct R as ((N & WK) & C & A & D & E). split; [|split; [|split; [|exact C]]].
  - assert (X : map o_key (map (fun x => d_inner (snd x)) (filter (fun x => after f e0 (snd x)) (m_values (st_map st'))))
              = map fst (filter (fun x => after f e0 (snd x)) (m_values (st_map st')))).
    { rewrite map_map. apply map_ext_in. intros [k c] X. apply filter_In in X. apply (WK k c). exact (In_lookup o L k c _ N (proj1 X)). }
    rewrite X. apply nodup_filter_keys. exact N.
  - assert (AF : forall k c, lookup o k (m_values (st_map st')) = Some c -> (after f e0 c = true <-> altered o f (contents o st) us k)).
    { intros k c X. destruct (A k c X) as (A1 & A2 & A3). rewrite (altered_parts o L f _ us k W), <- A1, <- A2, <- A3.
      unfold after. rewrite !orb_true_iff, !andb_true_iff, !Z.ltb_lt. tauto. }
    intros v. rewrite in_map_iff. split.
    + intros ([k c] & <- & X). apply filter_In in X. destruct X as [X Y]. cbn in *. apply (In_lookup o L _ _ _ N) in X.
      rewrite (WK _ _ X). split; [|apply (AF k c X); exact Y]. unfold contents. rewrite X. reflexivity.
    + intros [X Y]. unfold contents in X. destruct (lookup o (o_key v) (m_values (st_map st'))) as [c|] eqn:LK; [|discriminate].
      injection X as X. exists (o_key v, c). split; [exact X|]. apply filter_In. split; [exact (lookup_In o L _ _ _ LK)|].
      apply (AF _ _ LK). exact Y.
  - intros v. rewrite <- D, in_map_iff. rewrite Forall_forall in E. split.
    + intros (c & <- & X). apply filter_In in X. destruct X as [X Y]. exists c. split; [exact X|]. split; [reflexivity|]. split; [reflexivity|].
      destruct (E _ X) as [E1 E2]. unfold after in Y. rewrite E1, E2 in Y. destruct (e0 <? d_spec c) eqn:Z; [lia|].
      rewrite !andb_false_r in Y. discriminate.
    + intros (c & X & Y & _ & Z). exists c. split; [exact Y|]. apply filter_In. split; [exact X|].
      destruct (E _ X) as [E1 E2]. unfold after. rewrite E1, E2. replace (e0 <? d_spec c) with true by lia. rewrite !andb_true_r. exact W.
Qed.

(** * Full syncs *)

Lemma call_mono st c : sinv o st -> m_epoch (st_map st) <= m_epoch (st_map (do_call o st c))
  /\ m_fence (st_map st) <= m_fence (st_map (do_call o st c)).
Proof.
  intros H. destruct c as [us|vs]; cbn [do_call].
  - destruct (apply_is o L st us H); cbn [fst st_map]; [lia|].
    destruct (apply_all_frame o us (set_epoch (st_map st) (m_epoch (st_map st) + 1))) as [P Q]. rewrite P, Q. cbn. lia.
  - destruct (sync_is o L st vs H) as (_ & A & B & _). destruct H as [(_ & _ & F) _]. lia.
Qed.
Lemma calls_mono cs : forall st, sinv o st -> m_epoch (st_map st) <= m_epoch (st_map (do_calls o st cs))
  /\ m_fence (st_map st) <= m_fence (st_map (do_calls o st cs)).
Proof.
  induction cs as [|c cs IH]; intros st H; [cbn; lia|]. cbn [do_calls fold_left]. fold (do_calls o (do_call o st c) cs).
  destruct (call_mono st c H). destruct (IH _ (call_sinv o L st c H)). lia.
Qed.
Lemma calls_full cs : forall st, sinv o st -> updates_of cs = None -> m_epoch (st_map st) < m_fence (st_map (do_calls o st cs)).
Proof.
  induction cs as [|c cs IH]; intros st H U; [discriminate|]. cbn [do_calls fold_left]. fold (do_calls o (do_call o st c) cs).
  assert (H' := call_sinv o L st c H). destruct c as [us|vs].
  - cbn in U. destruct (updates_of cs); [discriminate|]. specialize (IH _ H' eq_refl). destruct (call_mono st (Apply us) H). lia.
  - destruct (calls_mono cs _ H'). destruct (sync_is o L st vs H) as (_ & A & B & _). cbn [do_call] in *. lia.
Qed.
Lemma look_full f (st : store) e : e < m_fence (st_map st) ->
  fst (look f st e) = mkChanges (m_epoch (st_map st)) (SyncAll (map (fun x => d_inner (snd x)) (m_values (st_map st)))).
Proof. intros H. unfold look, changes_since. cbn [fst]. replace (e <? m_fence (st_map st)) with true by lia. reflexivity. Qed.
Lemma all_distinct (st : store) : sinv o st -> NoDup (map o_key (map (fun x => d_inner (snd x)) (m_values (st_map st)))).
Proof.
  intros [((N & WK) & _) _]. set (l := m_values (st_map st)) in *.
  assert (X : map o_key (map (fun x => d_inner (snd x)) l) = map fst l).
  { rewrite map_map. apply map_ext_in. intros [k' c] X. apply (WK k' c). exact (In_lookup o L k' c _ N X). }
  rewrite X. exact N.
Qed.
Lemma all_find (st : store) k : sinv o st ->
  find (fun v => keq o k (o_key v)) (map (fun x => d_inner (snd x)) (m_values (st_map st))) = contents o st k
  /\ NoDup (map o_key (map (fun x => d_inner (snd x)) (m_values (st_map st)))).
Proof.
  intros [((N & WK) & _) _]. unfold contents. set (l := m_values (st_map st)) in *.
  assert (X : map o_key (map (fun x => d_inner (snd x)) l) = map fst l).
  { rewrite map_map. apply map_ext_in. intros [k' c] X. apply (WK k' c). exact (In_lookup o L k' c _ N X). }
  rewrite X. split; [|exact N]. destruct (lookup o k l) as [c|] eqn:E; cbn.
  - apply (find_In o_key); [rewrite X; exact N|]. split; [|exact (WK _ _ E)]. apply in_map_iff. exists (k, c). split; [reflexivity|].
    exact (lookup_In o L _ _ _ E).
  - apply find_none. rewrite X. apply (lookup_None o L). exact E.
Qed.
Lemma all_empty st : sinv o st -> (m_values (st_map st) = [] <-> nothing (contents o st)).
Proof.
  intros [((N & WK) & _) _]. unfold nothing, contents. destruct (m_values (st_map st)) as [|[k c] l]; [split; reflexivity|].
  split; [discriminate|]. intros H. specialize (H k). cbn in H. rewrite (keq_refl o L) in H. discriminate.
Qed.

(** * What watchers make of it: the updates, then the deletes *)

Definition late {V} (conv : object -> V) (shows : view V) (c : changes) : view (K := K) V := fun k =>
  match c_delta c with
  | SyncAll [] => shows k
  | SyncAll all => option_map conv (find (fun v => keq o k (o_key v)) all)
  | Changes us ds =>
      if existsb (fun v => keq o k (o_key v)) ds then None
      else match find (fun v => keq o k (o_key v)) us with
           | Some v => Some (conv v)
           | None => shows k
           end
  end.
Definition distinct (c : changes) : Prop :=
  match c_delta c with SyncAll l => NoDup (map o_key l) | Changes us _ => NoDup (map o_key us) end.
Lemma late_shuffled {V} (conv : object -> V) shows c c' : distinct c -> shuffled c c' ->
  same (late conv shows c') (late conv shows c) /\ distinct c'.
Proof.
  intros D H. destruct H as [e l l' P|e u u' d d' P P']; unfold distinct in *; cbn in *.
  - split; [|exact (Permutation_NoDup (Permutation_map o_key P) D)]. intros k. unfold late. cbn.
    destruct l as [|x l]; [apply Permutation_nil in P; subst; reflexivity|].
    destruct l' as [|x' l']; [apply Permutation_sym, Permutation_nil in P; discriminate|].
    f_equal. apply (find_perm o_key); assumption.
  - split; [|exact (Permutation_NoDup (Permutation_map o_key P) D)]. intros k. unfold late. cbn.
    rewrite (exists_perm o_key k d d' P'), (find_perm o_key k u u' D P). reflexivity.
Qed.
Lemma look_distinct f st e : sinv o st -> distinct (fst (look f st e)).
Proof.
  intros H. destruct H as [((N & WK) & H') H'']. unfold look, changes_since, distinct. cbn [fst].
  assert (X : forall p, NoDup (map o_key (map (fun x => d_inner (snd x)) (filter p (m_values (st_map st)))))).
  { intros p. set (l := m_values (st_map st)) in *.
    replace (map o_key _) with (map fst (filter p l)); [apply nodup_filter_keys; exact N|].
    rewrite map_map. apply map_ext_in. intros [k' c] X. apply filter_In in X. symmetry. apply (WK k' c). exact (In_lookup o L k' c _ N (proj1 X)). }
  destruct (e <? _); cbn.
  - specialize (X (fun _ => true)). replace (filter (fun _ => true) (m_values (st_map st))) with (m_values (st_map st)) in X; [exact X|].
    clear. induction (m_values (st_map st)) as [|x l IH]; [reflexivity|]. cbn. rewrite <- IH. reflexivity.
  - destruct (e =? _); cbn; [constructor|apply X].
Qed.

(** conv depends on the watched parts *)
Definition respects {V} (f : flag) (conv : object -> V) : Prop :=
  forall v v', o_key v = o_key v' -> parts_of f v = parts_of f v' -> conv v = conv v'.
Lemma contents_key st k v : sinv o st -> contents o st k = Some v -> o_key v = k.
Proof.
  intros [((N & WK) & _) _] H. unfold contents in H. destruct (lookup o k _) as [c|] eqn:E; [|discriminate]. injection H as <-. exact (WK _ _ E).
Qed.

Lemma effects_key st us k v : sinv o st -> effects o (contents o st) us k = Some v -> o_key v = k.
Proof.
  intros H. revert v. induction us as [|u us IH] using rev_ind; intros v; [apply contents_key; exact H|].
  rewrite effects_snoc. unfold effect. destruct u as [w|k'].
  - kd k (o_key w); [|apply IH]. destruct (effects o (contents o st) us (o_key w)) as [old|] eqn:E.
    + destruct (newer o (o_item old) (o_item w)); [intros X; injection X as <-; apply IH; reflexivity|].
      intros X. injection X as <-. reflexivity.
    + intros X. injection X as <-. reflexivity.
  - destruct (keq o k k'); [discriminate|apply IH].
Qed.

Lemma late_right {V} f (conv : object -> V) shows st cs : sinv o st -> watches f = true -> respects f conv ->
  same shows (seen o conv st) ->
  (same (late conv shows (fst (look f (do_calls o st cs) (m_epoch (st_map st))))) (seen o conv (do_calls o st cs))
   <-> undisturbed o shows st cs).
Proof.
  intros H W R SH. unfold undisturbed. destruct (updates_of cs) as [us|] eqn:U.
  - destruct (reported f st cs us H W U) as (ups & dels & E & N & UP & DE & C). cbn zeta in *.
    set (st' := do_calls o st cs) in *.
    assert (H' : sinv o st') by (apply (calls_sinv o L); exact H).
    rewrite E. unfold late. cbn [c_delta].
    assert (DL : forall k, existsb (fun v => keq o k (o_key v)) dels = true <-> exists v, deleted o (contents o st) us k v).
    { intros k. rewrite (exists_In o_key), in_map_iff. split; intros (v & X).
      - destruct X as [X Y]. exists v. apply DE in Y. rewrite X in Y. exact Y.
      - exists v. assert (Z : o_key v = k). { destruct X as (us1 & u & us2 & _ & X & _). exact (effects_key st us1 k v H X). }
        split; [exact Z|]. apply DE. rewrite Z. exact X. }
    split.
    + intros S1 k [D D']. apply DL in D. specialize (S1 k). cbn in S1. rewrite D in S1. unfold seen in S1.
      rewrite (C k) in S1. destruct (effects o (contents o st) us k); [discriminate|contradiction].
    + intros ND k. cbn. destruct (existsb _ dels) eqn:D.
      * apply DL in D. unfold seen. rewrite (C k). destruct (effects o (contents o st) us k) eqn:X; [|reflexivity].
        destruct (ND k). split; [exact D|rewrite X; discriminate].
      * destruct (find _ ups) as [v|] eqn:FD.
        -- apply (find_In o_key) in FD; [|exact N]. destruct FD as [FD FK]. apply UP in FD. rewrite FK in FD.
           unfold seen. rewrite (proj1 FD). reflexivity.
        -- apply find_none in FD. rewrite (SH k). unfold seen. rewrite (C k).
           assert (NA : effects o (contents o st) us k = None \/ ~ altered o f (contents o st) us k).
           { destruct (effects o (contents o st) us k) as [v|] eqn:X; [right|left; reflexivity]. intros A. apply FD.
             apply in_map_iff. exists v. assert (KV := effects_key st us k v H X). split; [exact KV|]. apply UP. rewrite KV, (C k). split; assumption. }
           destruct NA as [NA|NA].
           ++ rewrite NA. destruct (contents o st k) as [v|] eqn:X; [|reflexivity]. exfalso.
              assert (G : exists v, deleted o (contents o st) us k v) by (apply (gone o (contents o st) us k); [rewrite X; discriminate|exact NA]).
              apply DL in G. congruence.
           ++ assert (Q := steady o L f (contents o st) us k NA).
              destruct (contents o st k) as [v|] eqn:X, (effects o (contents o st) us k) as [w|] eqn:Y; try discriminate Q; [|reflexivity].
              cbn in *. injection Q as Q1 Q2 Q3. f_equal. apply R.
              ** rewrite (contents_key st k v H X), (effects_key st us k w H Y). reflexivity.
              ** unfold parts_of. rewrite Q1, Q2, Q3. reflexivity.
  - assert (F := calls_full cs st H U). set (st' := do_calls o st cs) in *.
    assert (H' : sinv o st') by (apply (calls_sinv o L); exact H).
    rewrite (look_full f st' _ F). unfold late. cbn [c_delta].
    assert (AF := fun k => proj1 (all_find st' k H')). assert (AE := all_empty st' H').
    destruct (map (fun x => d_inner (snd x)) (m_values (st_map st'))) as [|x l] eqn:X.
    + apply map_eq_nil in X. assert (Z := proj1 AE X). split.
      * intros S1 _ k. rewrite (S1 k). unfold seen. rewrite (Z k). reflexivity.
      * intros S1 k. cbn. unfold seen. rewrite (Z k). exact (S1 Z k).
    + split.
      * intros _ Z. apply AE in Z. rewrite Z in X. discriminate.
      * intros _ k. cbv beta. rewrite AF. reflexivity.
Qed.
(** however far the watcher was behind *)
Lemma late_resync {V} f (conv : object -> V) shows st e : sinv o st -> e < m_fence (st_map st) ->
  ~ nothing (contents o st) -> same (late conv shows (fst (look f st e))) (seen o conv st).
Proof.
  intros H F NE. rewrite (look_full f st _ F). unfold late. cbn [c_delta].
  assert (AF := fun k => proj1 (all_find st k H)). assert (AE := all_empty st H).
  destruct (map (fun x => d_inner (snd x)) (m_values (st_map st))) as [|x l] eqn:X.
  - apply map_eq_nil in X. apply AE in X. contradiction.
  - intros k. cbv beta. rewrite AF. reflexivity.
Qed.
(** deletes first *)
Lemma order_right {V} f (conv : object -> V) shows st cs c : sinv o st -> watches f = true -> respects f conv ->
  same shows (seen o conv st) -> shuffled (fst (look f (do_calls o st cs) (m_epoch (st_map st)))) c ->
  same (in_order o conv shows c) (seen o conv (do_calls o st cs)).
Proof.
  intros H W R SH P. assert (H0 : sinv o (do_calls o st cs)) by (apply (calls_sinv o L); exact H).
  assert (DI := look_distinct f (do_calls o st cs) (m_epoch (st_map st)) H0).
  destruct (updates_of cs) as [us|] eqn:U.
  - destruct (reported f st cs us H W U) as (ups & dels & E & N & UP & DE & C). cbn zeta in *.
    set (st' := do_calls o st cs) in *. rewrite E in P. inversion P as [|e0 u u' d d' PU PD]; subst. clear P. rename u' into ups'. rename d' into dels'.
    assert (DL : forall k, existsb (fun v => keq o k (o_key v)) dels' = true <-> exists v, deleted o (contents o st) us k v).
    { intros k. rewrite (exists_perm o_key k dels dels' PD), (exists_In o_key), in_map_iff. split; intros (v & X).
      - destruct X as [X Y]. exists v. apply DE in Y. rewrite X in Y. exact Y.
      - exists v. assert (Z : o_key v = k). { destruct X as (us1 & u & us2 & _ & X & _). exact (effects_key st us1 k v H X). }
        split; [exact Z|]. apply DE. rewrite Z. exact X. }
    intros k. unfold in_order. cbn [c_delta]. rewrite (find_perm o_key k ups ups' N PU).
    destruct (find _ ups) as [v|] eqn:FD.
    + apply (find_In o_key) in FD; [|exact N]. destruct FD as [FD FK]. apply UP in FD. rewrite FK in FD.
      unfold seen. rewrite (proj1 FD). reflexivity.
    + apply find_none in FD. unfold seen. rewrite (C k).
      assert (NA : effects o (contents o st) us k = None \/ ~ altered o f (contents o st) us k).
      { destruct (effects o (contents o st) us k) as [v|] eqn:X; [right|left; reflexivity]. intros A. apply FD.
        apply in_map_iff. exists v. assert (KV := effects_key st us k v H X). split; [exact KV|]. apply UP. rewrite KV, (C k). split; assumption. }
      destruct (existsb _ dels') eqn:D.
      * apply DL in D. destruct D as (v & D). destruct NA as [NA|NA]; [rewrite NA; reflexivity|]. exfalso. apply NA.
        destruct D as (us1 & u & us2 & E1 & E2 & E3). exists us1, u, us2. split; [exact E1|]. rewrite E2, E3. discriminate.
      * rewrite (SH k). unfold seen. destruct NA as [NA|NA].
        -- rewrite NA. destruct (contents o st k) as [v|] eqn:X; [|reflexivity]. exfalso.
           assert (G : exists v, deleted o (contents o st) us k v) by (apply (gone o (contents o st) us k); [rewrite X; discriminate|exact NA]).
           apply DL in G. congruence.
        -- assert (Q := steady o L f (contents o st) us k NA).
           destruct (contents o st k) as [v|] eqn:X, (effects o (contents o st) us k) as [w|] eqn:Y; try discriminate Q; [|reflexivity].
           cbn in *. injection Q as Q1 Q2 Q3. f_equal. apply R.
           ++ rewrite (contents_key st k v H X), (effects_key st us k w H Y). reflexivity.
           ++ unfold parts_of. rewrite Q1, Q2, Q3. reflexivity.
  - assert (F := calls_full cs st H U). set (st' := do_calls o st cs) in *.
    rewrite (look_full f st' _ F) in P, DI. inversion P as [e0 l l' PL|]; subst. clear P.
    intros k. unfold in_order. cbn [c_delta]. rewrite (find_perm o_key k _ l' DI PL), (proj1 (all_find st' k H0)). reflexivity.
Qed.

(** * The client *)

Lemma client_lawful : lawful (client_ops o).
Proof.
  destruct L as [A B C D]. split; cbn; [exact A|exact B|exact C|]. intros [] []. tauto.
Qed.
Lemma mods_find vs : forall (s : view (MetaModel.object K S T unit)) k, NoDup (map o_key vs) ->
  effects (client_ops o) s (map Mod vs) k = match find (fun v => keq o k (o_key v)) vs with Some v => Some v | None => s k end.
Proof.
  induction vs as [|v vs IH]; intros s k N; [reflexivity|]. cbn [map] in N. inversion_clear N as [|? ? H1 H2].
  cbn [map effects fold_left find]. fold (effects (client_ops o) (effect (client_ops o) s (Mod v)) (map Mod vs)).
  rewrite (IH _ k H2). kd k (o_key v).
  - replace (find _ vs) with (@None (MetaModel.object K S T unit)).
    + unfold effect. cbn. rewrite (keq_refl o L). destruct (s (o_key v)); reflexivity.
    + symmetry. apply find_none. exact H1.
  - destruct (find _ vs); [reflexivity|]. unfold effect. cbn.
    match goal with H : k <> _ |- _ => apply (keq_neq o L) in H; rewrite H end. reflexivity.
Qed.
Lemma deletes_find ks : forall (s : view (MetaModel.object K S T unit)) k,
  effects (client_ops o) s (map Delete ks) k = if existsb (fun x => keq o k x) ks then None else s k.
Proof.
  induction ks as [|x ks IH]; intros s k; [reflexivity|]. cbn [map effects fold_left existsb].
  fold (effects (client_ops o) (effect (client_ops o) s (Delete x)) (map Delete ks)). rewrite IH. unfold effect. cbn.
  destruct (keq o k x); cbn; [|reflexivity]. destruct (existsb _ ks); reflexivity.
Qed.

Definition cview (s : MetaModel.store K S T unit) : view (K := K) (S * T) := client_view o (0, s).
Lemma client_is summ (s : MetaModel.store K S T unit) c : sinv (client_ops o) s -> distinct c ->
  let s' := client_receive o s (watch_message (to_metadata summ) (to_metadata (fun x => x)) c) in
  sinv (client_ops o) s' /\ same (cview s') (late (shown summ) (cview s) c).
Proof.
  intros H D. cbn zeta. destruct c as [e [all|us ds]]; unfold watch_message, client_receive, distinct in *; cbn [c_delta g_all g_changes c_epoch] in *.
  - destruct all as [|x all]; [cbn; split; [exact H|intros k; reflexivity]|].
    set (l := x :: all) in *. change (match map (to_metadata summ) l with [] => s | all0 => fst (sync_all (client_ops o) s (map of_metadata all0)) end)
      with (fst (sync_all (client_ops o) s (map of_metadata (map (to_metadata summ) l)))).
    assert (L' := client_lawful).
    destruct (sync_is _ L' s (map of_metadata (map (to_metadata summ) l)) H) as (A & _ & _ & _ & B).
    split; [exact A|]. intros k. unfold cview, client_view. cbn [snd].
    change (option_map d_inner (lookup o k (m_values (st_map (fst (sync_all (client_ops o) s (map of_metadata (map (to_metadata summ) l))))))))
      with (contents (client_ops o) (fst (sync_all (client_ops o) s (map of_metadata (map (to_metadata summ) l)))) k).
    rewrite (B k). unfold late. cbn [c_delta]. unfold l at 2. fold l. unfold full_effect.
    rewrite map_map. set (g := fun x0 : object => of_metadata (to_metadata summ x0)).
    assert (NK : map o_key (map g l) = map o_key l) by (rewrite map_map; reflexivity).
    assert (FG : forall l0 : list object, find (fun v => keq o k (o_key v)) (map g l0) = option_map g (find (fun v => keq o k (o_key v)) l0)).
    { induction l0 as [|y l0 IH]; [reflexivity|]. cbn. destruct (keq o k (o_key y)); [reflexivity|exact IH]. }
    rewrite (mods_find (map g l)) by (rewrite NK; exact D). rewrite FG.
    assert (NM : named (client_ops o) k (map g l) = match find (fun v => keq o k (o_key v)) l with Some _ => true | None => false end).
    { unfold named. cbn [client_ops keq]. clear. induction l as [|y l0 IH]; [reflexivity|]. cbn. destruct (keq o k (o_key y)); [reflexivity|exact IH]. }
    rewrite NM. destruct (find _ l) as [v|]; reflexivity.
  - set (cs := map (fun u => (UPDATE, to_metadata summ u)) us ++ map (fun d => (DELETE, to_metadata (fun x => x) d)) ds).
    set (toup := fun c : msg_type * metadata => match fst c with UPDATE => Mod (of_metadata (snd c)) | DELETE => Delete (o_key (of_metadata (snd c))) end).
    assert (E : map toup cs = map Mod (map (fun u => of_metadata (to_metadata summ u)) us) ++ map Delete (map o_key ds)).
    { unfold cs. rewrite map_app, !map_map. reflexivity. }
    assert (A : sinv (client_ops o) (fst (apply_changes (client_ops o) s (map toup cs)))
              /\ same (contents (client_ops o) (fst (apply_changes (client_ops o) s (map toup cs)))) (effects (client_ops o) (contents (client_ops o) s) (map toup cs))).
    { split; [apply (apply_sinv _ client_lawful); exact H|apply (apply_contents _ client_lawful); exact H]. }
    assert (B : sinv (client_ops o) (match cs with [] => s | c0 :: l0 => fst (apply_changes (client_ops o) s (map toup (c0 :: l0))) end)
              /\ same (contents (client_ops o) (match cs with [] => s | c0 :: l0 => fst (apply_changes (client_ops o) s (map toup (c0 :: l0))) end)) (effects (client_ops o) (contents (client_ops o) s) (map toup cs))).
    { destruct cs; [split; [exact H|intros k; reflexivity]|exact A]. }
    clear A. destruct B as [B1 B2]. split; [exact B1|].
    set (s' := match cs with [] => s | c0 :: l0 => fst (apply_changes (client_ops o) s (map toup (c0 :: l0))) end) in *.
    intros k. change (option_map (fun v => (o_spec v, o_status v)) (contents (client_ops o) s' k) = late (shown summ) (cview s) (mkChanges e (Changes us ds)) k).
    rewrite (B2 k), E, effects_app, deletes_find. unfold late. cbn [c_delta].
    assert (X : existsb (fun x => keq o k x) (map o_key ds) = existsb (fun v => keq o k (o_key v)) ds).
    { clear. induction ds as [|d ds IH]; [reflexivity|]. cbn. rewrite IH. reflexivity. }
    rewrite X. destruct (existsb _ ds); [reflexivity|].
    rewrite mods_find by (rewrite map_map; exact D).
    assert (FG : find (fun v => keq o k (o_key v)) (map (fun u => of_metadata (to_metadata summ u)) us)
                 = option_map (fun u => of_metadata (to_metadata summ u)) (find (fun v => keq o k (o_key v)) us)).
    { clear. induction us as [|y l0 IH]; [reflexivity|]. cbn. destruct (keq o k (o_key y)); [reflexivity|exact IH]. }
    rewrite FG. destruct (find _ us) as [v|]; reflexivity.
Qed.
Lemma shown_respects summ : respects full (shown summ).
Proof. intros v v' _ H. unfold parts_of in H. cbn in H. injection H as A B C. unfold shown. rewrite A, B. reflexivity. Qed.
Lemma client_runs_ok summ st w : client_runs o summ st w -> sinv o st /\ sinv (client_ops o) (snd w) /\ fst w <= m_epoch (st_map st).
Proof.
  induction 1 as [|st w c R (A & B & C)|st w w' R (A & B & C) LK].
  - split; [apply new_sinv|]. split; [apply new_sinv|]. cbn. lia.
  - split; [apply (call_sinv o L); exact A|]. split; [exact B|]. destruct (call_mono st c A). lia.
  - split; [exact A|]. destruct LK as [last s c' SH]. cbn [fst snd] in *.
    destruct (late_shuffled (shown summ) (cview s) _ c' (look_distinct full st last A) SH) as [_ D].
    split; [exact (proj1 (client_is summ s c' B D))|]. unfold look, changes_since.
    destruct (last <? m_fence (st_map st)); [cbn; lia|]. destruct (last =? m_epoch (st_map st)); cbn; lia.
Qed.
Lemma client_look_late summ st w w' : sinv o st -> sinv (client_ops o) (snd w) -> client_looks o summ st w w' ->
  same (client_view o w') (late (shown summ) (client_view o w) (fst (look full st (fst w)))) /\ looked w' st.
Proof.
  intros A B LK. destruct LK as [last s c' SH]. cbn [fst snd] in *. split.
  - destruct (late_shuffled (shown summ) (cview s) _ c' (look_distinct full st last A) SH) as [P D].
    intros k. eapply eq_trans; [|exact (P k)]. exact (proj2 (client_is summ s c' B D) k).
  - unfold looked, look, changes_since. cbn. destruct (last <? m_fence (st_map st)); [reflexivity|]. destruct (last =? m_epoch (st_map st)); reflexivity.
Qed.
Lemma client_exact summ st w cs w' : client_runs o summ st w -> looked w st -> same (client_view o w) (seen o (shown summ) st) ->
  client_looks o summ (do_calls o st cs) w w' ->
  (same (client_view o w') (seen o (shown summ) (do_calls o st cs)) <-> undisturbed o (client_view o w) st cs)
  /\ looked w' (do_calls o st cs).
Proof.
  intros R LO SH LK. destruct (client_runs_ok summ st w R) as (A & B & C).
  assert (A' : sinv o (do_calls o st cs)) by (apply (calls_sinv o L); exact A).
  destruct (client_look_late summ _ w w' A' B LK) as [P Q]. split; [|exact Q]. rewrite LO in P.
  rewrite <- (late_right full (shown summ) (client_view o w) st cs A eq_refl (shown_respects summ) SH).
  split; intros X; [exact (same_trans _ _ _ (same_sym _ _ P) X)|exact (same_trans _ _ _ P X)].
Qed.
Lemma client_resync summ st w cs w' : client_runs o summ st w -> updates_of cs = None -> ~ nothing (contents o (do_calls o st cs)) ->
  client_looks o summ (do_calls o st cs) w w' -> same (client_view o w') (seen o (shown summ) (do_calls o st cs)).
Proof.
  intros R U NE LK. destruct (client_runs_ok summ st w R) as (A & B & C).
  assert (A' : sinv o (do_calls o st cs)) by (apply (calls_sinv o L); exact A).
  destruct (client_look_late summ _ w w' A' B LK) as [P Q]. eapply same_trans; [exact P|].
  apply late_resync; [exact A'| |exact NE]. assert (F := calls_full cs st A U). lia.
Qed.
Lemma calls_app (st : store) a b : do_calls o st (a ++ b) = do_calls o (do_calls o st a) b.
Proof. apply fold_left_app. Qed.
Lemma client_runs_calls summ st w cs : client_runs o summ st w -> client_runs o summ (do_calls o st cs) w.
Proof. revert st. induction cs as [|c cs IH]; intros st H; [exact H|]. cbn. apply IH. constructor. exact H. Qed.
Lemma client_calm_right summ st w : client_calm o summ st w ->
  client_runs o summ st w /\ looked w st /\ same (client_view o w) (seen o (shown summ) st).
Proof.
  induction 1 as [|st w cs w' C (A & B & D) U LK].
  - split; [constructor|]. split; [reflexivity|]. intros k. reflexivity.
  - destruct (client_exact summ st w cs w' A B D LK) as [P Q]. split; [|split; [exact Q|apply P; exact U]].
    eapply cr_look; [|exact LK]. apply client_runs_calls. exact A.
Qed.

(** * SPUs *)

Section Spu.
Context {V : Type} (f : flag) (conv : object -> V) (key : V -> K).
Hypothesis (W : watches f = true) (FIT : fit f conv key).
Lemma inserts_find all : forall (s : list (K * V)) k, NoDup (map key all) ->
  lookup o k (fold_left (fun a v => insert o (key v) v a) all s)
  = match find (fun v => keq o k (key v)) all with Some v => Some v | None => lookup o k s end.
Proof.
  induction all as [|v all IH]; intros s k N; [reflexivity|]. cbn [map] in N. inversion_clear N as [|? ? H1 H2].
  cbn [fold_left find]. rewrite (IH _ k H2), (lookup_insert o L). kd k (key v).
  - replace (find _ all) with (@None V); [reflexivity|]. symmetry. apply (find_none key). exact H1.
  - reflexivity.
Qed.
Lemma erases_find ks : forall (s : list (K * V)) k,
  lookup o k (fold_left (fun a x => erase o x a) ks s) = if existsb (fun x => keq o k x) ks then None else lookup o k s.
Proof.
  induction ks as [|x ks IH]; intros s k; [reflexivity|]. cbn [fold_left existsb]. rewrite IH, (lookup_erase o L).
  destruct (keq o k x); cbn; [|reflexivity]. destruct (existsb _ ks); reflexivity.
Qed.
Lemma find_conv k (l : list object) : find (fun v => keq o k (key v)) (map conv l) = option_map conv (find (fun v => keq o k (o_key v)) l).
Proof.
  induction l as [|y l IH]; [reflexivity|]. cbn. rewrite (proj1 FIT y). destruct (keq o k (o_key y)); [reflexivity|exact IH].
Qed.
Lemma keys_conv (l : list object) : map key (map conv l) = map o_key l.
Proof. rewrite map_map. apply map_ext. apply FIT. Qed.
Lemma spu_is (s : list (K * V)) c : distinct c ->
  forall k, lookup o k (spu_receive o key s (watch_message conv conv c)) = late conv (fun k => lookup o k s) c k.
Proof.
  intros D k. destruct c as [e [all|us ds]]; unfold watch_message, spu_receive, late, distinct in *; cbn [c_delta g_all g_changes c_epoch] in *.
  - destruct all as [|x all]; [reflexivity|]. set (l := x :: all) in *.
    change (lookup o k (spu_sync_all o key s (map conv l)) = option_map conv (find (fun v => keq o k (o_key v)) l)).
    unfold spu_sync_all. rewrite erases_find, inserts_find by (rewrite keys_conv; exact D). rewrite find_conv.
    destruct (find _ l) as [v|] eqn:FD; cbn [option_map].
    + replace (existsb _ _) with false; [reflexivity|]. symmetry. apply not_true_is_false. rewrite existsb_exists.
      intros (x0 & A & B). apply (keq_ok o L) in B. subst x0. apply filter_In in A. destruct A as [_ A].
      apply negb_true_iff in A. apply not_true_iff_false in A. apply A. apply (exists_In key). rewrite keys_conv.
      apply (find_In o_key) in FD; [|exact D]. destruct FD as [FD <-]. apply in_map. exact FD.
    + destruct (existsb _ _) eqn:EX; [reflexivity|]. apply (lookup_None o L). intros IN.
      apply not_true_iff_false in EX. apply EX. apply existsb_exists. exists k. split; [|apply (keq_refl o L)].
      apply filter_In. split; [exact IN|]. apply negb_true_iff. apply not_true_iff_false. rewrite (exists_In key), keys_conv.
      apply (find_none o_key). exact FD.
  - cbn [spu_apply]. unfold spu_apply. rewrite fold_left_app.
    assert (E1 : forall l s0, fold_left (fun a c => match fst c with UPDATE => insert o (key (snd c)) (snd c) a | DELETE => erase o (key (snd c)) a end)
                   (map (fun u => (UPDATE, conv u)) l) s0 = fold_left (fun a v => insert o (key v) v a) (map conv l) s0).
    { induction l as [|y l IH]; intros s0; [reflexivity|]. cbn. apply IH. }
    assert (E2 : forall l s0, fold_left (fun a c => match fst c with UPDATE => insert o (key (snd c)) (snd c) a | DELETE => erase o (key (snd c)) a end)
                   (map (fun u => (DELETE, conv u)) l) s0 = fold_left (fun a x => erase o x a) (map key (map conv l)) s0).
    { induction l as [|y l IH]; intros s0; [reflexivity|]. cbn. apply IH. }
    rewrite E1, E2, erases_find, inserts_find by (rewrite keys_conv; exact D). rewrite keys_conv, find_conv.
    assert (X : existsb (fun x => keq o k x) (map o_key ds) = existsb (fun v => keq o k (o_key v)) ds).
    { clear. induction ds as [|d ds IH]; [reflexivity|]. cbn. rewrite IH. reflexivity. }
    rewrite X. destruct (existsb _ ds); [reflexivity|]. destruct (find _ us); reflexivity.
Qed.
Lemma spu_look_late st w w' : sinv o st -> fst w <= m_epoch (st_map st) -> spu_looks o f conv key st w w' ->
  same (spu_view o w') (late conv (spu_view o w) (fst (look f st (fst w)))) /\ looked w' st.
Proof.
  intros A C LK.
  assert (LE : forall last, snd (look f st last) = m_epoch (st_map st)).
  { intros last. unfold look, changes_since. destruct (last <? m_fence (st_map st)); [reflexivity|]. destruct (last =? m_epoch (st_map st)); reflexivity. }
  destruct LK as [last s HC|last s HC EM|last s c' HC EM SH]; cbn [fst snd] in *.
  - unfold has_change in HC. destruct A as [(A1 & A2 & A3) CH]. assert (last = m_epoch (st_map st)) as -> by lia.
    split; [|reflexivity]. intros k. unfold look, changes_since. cbn [fst].
    replace (m_epoch (st_map st) <? m_fence (st_map st)) with false by lia. rewrite Z.eqb_refl. reflexivity.
  - split; [|exact (LE last)]. intros k. unfold late, is_empty in *. unfold spu_view. cbn [snd].
    destruct (c_delta (fst (look f st last))) as [[|x l]|[|x l] [|y d]]; try discriminate EM; reflexivity.
  - split; [|exact (LE last)].
    destruct (late_shuffled conv (fun k => lookup o k s) _ c' (look_distinct f st last A) SH) as [P D].
    intros k. eapply eq_trans; [|exact (P k)]. exact (spu_is s c' D k).
Qed.
Lemma spu_runs_ok st w : spu_runs o f conv key st w -> sinv o st /\ fst w <= m_epoch (st_map st).
Proof.
  induction 1 as [|st w c R (A & C)|st w w' R (A & C) LK].
  - split; [apply new_sinv|]. cbn. lia.
  - split; [apply (call_sinv o L); exact A|]. destruct (call_mono st c A). lia.
  - split; [exact A|]. destruct (spu_look_late st w w' A C LK) as [_ Q]. unfold looked in Q. lia.
Qed.
Lemma spu_exact st w cs w' : spu_runs o f conv key st w -> looked w st -> same (spu_view o w) (seen o conv st) ->
  spu_looks o f conv key (do_calls o st cs) w w' ->
  (same (spu_view o w') (seen o conv (do_calls o st cs)) <-> undisturbed o (spu_view o w) st cs)
  /\ looked w' (do_calls o st cs).
Proof.
  intros R LO SH LK. destruct (spu_runs_ok st w R) as (A & C).
  assert (A' : sinv o (do_calls o st cs)) by (apply (calls_sinv o L); exact A).
  assert (C' : fst w <= m_epoch (st_map (do_calls o st cs))) by (destruct (calls_mono cs st A); lia).
  destruct (spu_look_late _ w w' A' C' LK) as [P Q]. split; [|exact Q]. rewrite LO in P.
  rewrite <- (late_right f conv (spu_view o w) st cs A W (proj2 FIT) SH).
  split; intros X; [exact (same_trans _ _ _ (same_sym _ _ P) X)|exact (same_trans _ _ _ P X)].
Qed.
Lemma spu_resync st w cs w' : spu_runs o f conv key st w -> updates_of cs = None -> ~ nothing (contents o (do_calls o st cs)) ->
  spu_looks o f conv key (do_calls o st cs) w w' -> same (spu_view o w') (seen o conv (do_calls o st cs)).
Proof.
  intros R U NE LK. destruct (spu_runs_ok st w R) as (A & C).
  assert (A' : sinv o (do_calls o st cs)) by (apply (calls_sinv o L); exact A).
  assert (C' : fst w <= m_epoch (st_map (do_calls o st cs))) by (destruct (calls_mono cs st A); lia).
  destruct (spu_look_late _ w w' A' C' LK) as [P Q]. eapply same_trans; [exact P|].
  apply late_resync; [exact A'| |exact NE]. assert (F := calls_full cs st A U). lia.
Qed.
Lemma spu_runs_calls st w cs : spu_runs o f conv key st w -> spu_runs o f conv key (do_calls o st cs) w.
Proof. revert st. induction cs as [|c cs IH]; intros st H; [exact H|]. cbn. apply IH. constructor. exact H. Qed.
Lemma spu_calm_right st w : spu_calm o f conv key st w ->
  spu_runs o f conv key st w /\ looked w st /\ same (spu_view o w) (seen o conv st).
Proof.
  induction 1 as [|st w cs w' C (A & B & D) U LK].
  - split; [constructor|]. split; [reflexivity|]. intros k. reflexivity.
  - destruct (spu_exact st w cs w' A B D LK) as [P Q]. split; [|split; [exact Q|apply P; exact U]].
    eapply sr_look; [|exact LK]. apply spu_runs_calls. exact A.
Qed.
End Spu.

(** * The claims *)

Lemma claim_contents st c : reachable o st -> same (contents o (do_call o st c)) (call_effect o (contents o st) c).
Proof. intros H. apply (call_contents o L). apply (reachable_sinv o L). exact H. Qed.
Lemma claim_enough {V} f (conv : object -> V) key shows st cs c : reachable o st -> watches f = true -> fit f conv key ->
  same shows (seen o conv st) -> shuffled (fst (look f (do_calls o st cs) (m_epoch (st_map st)))) c ->
  same (in_order o conv shows c) (seen o conv (do_calls o st cs)).
Proof. intros H W F. apply order_right; [apply (reachable_sinv o L); exact H|exact W|exact (proj2 F)]. Qed.
Lemma claim_initial cs : initial_sync (do_calls o new_store cs) 0 = None <-> updates_of cs <> None.
Proof.
  unfold initial_sync. destruct (updates_of cs) as [us|] eqn:U.
  - split; [discriminate|]. intros _.
    destruct (reported full new_store cs us (new_sinv o) eq_refl U) as (ups & dels & E & _). cbn zeta in E.
    change (m_epoch (st_map new_store)) with 0 in E. rewrite E. reflexivity.
  - split; [|congruence]. intros H. exfalso.
    assert (F := calls_full cs new_store (new_sinv o) U). change (m_epoch (st_map new_store)) with 0 in F.
    rewrite (look_full full _ 0 F) in H. discriminate H.
Qed.

Lemma claim_notified st us : reachable o st ->
  (snd (apply_changes o st us) = None <-> idle o (contents o st) us /\ forall k, ~ In (Delete k) us)
  /\ (snd (apply_changes o st us) = None -> fst (apply_changes o st us) = st)
  /\ (snd (apply_changes o st us) <> None -> forall A (w : Z * A), looked w st -> has_change (fst (apply_changes o st us)) (fst w) = true).
Proof.
  intros H. apply (reachable_sinv o L) in H. destruct (apply_is o L st us H) as [A B|t A]; cbn [fst snd].
  - split; [tauto|]. split; [reflexivity|]. intros X. destruct X. reflexivity.
  - split; [split; [discriminate|tauto]|]. split; [discriminate|]. intros _ B w E. unfold looked in E. unfold has_change. cbn. lia.
Qed.
Lemma claim_reported f st cs us : reachable o st -> watches f = true -> updates_of cs = Some us ->
  exists ups dels, c_delta (fst (look f (do_calls o st cs) (m_epoch (st_map st)))) = Changes ups dels
    /\ NoDup (map o_key ups)
    /\ (forall v, In v ups <-> contents o (do_calls o st cs) (o_key v) = Some v /\ altered o f (contents o st) us (o_key v))
    /\ (forall v, In v dels <-> deleted o (contents o st) us (o_key v) v).
Proof.
  intros H W U. destruct (reported f st cs us (reachable_sinv o L st H) W U) as (ups & dels & E & N & A & D & _). cbn zeta in *.
  exists ups, dels. rewrite E. split; [reflexivity|]. split; [exact N|]. split; assumption.
Qed.
Lemma claim_full f st cs : reachable o st -> updates_of cs = None ->
  exists all, c_delta (fst (look f (do_calls o st cs) (m_epoch (st_map st)))) = SyncAll all
    /\ NoDup (map o_key all) /\ forall v, In v all <-> contents o (do_calls o st cs) (o_key v) = Some v.
Proof.
  intros H U. apply (reachable_sinv o L) in H. assert (F := calls_full cs st H U).
  assert (A' : sinv o (do_calls o st cs)) by (apply (calls_sinv o L); exact H). set (st' := do_calls o st cs) in *.
  eexists. split; [rewrite (look_full f _ _ F); reflexivity|].
  assert (N : NoDup (map o_key (map (fun x => d_inner (snd x)) (m_values (st_map st'))))) by exact (all_distinct st' A').
  split; [exact N|]. intros v. rewrite <- (proj1 (all_find st' (o_key v) A')). rewrite (find_In o_key (o_key v) _ v N). tauto.
Qed.
End Meta.

(** * Examples: numbers for keys, specs, statuses and revisions *)

Definition zops : ops Z Z Z Z := mkOps Z Z Z Z Z.eqb Z.eqb Z.eqb Z.eqb Z.gtb.
Lemma zops_lawful : lawful zops.
Proof. split; exact Z.eqb_eq. Qed.
Definition a1 := mkObject 1 10 100 0.
Definition a2 := mkObject 1 11 100 1.
Definition a3 := mkObject 1 10 101 2.
Definition b1 := mkObject 2 20 200 0.
Definition c1 := mkObject 3 30 300 0.
Lemma shuffled_refl {K S T I} (c : changes K S T I) : shuffled c c.
Proof. destruct c as [e [l|u d]]; constructor; apply Permutation_refl. Qed.

(** the store after these calls, and a client and an SPU after a look at it *)
Definition zstore (cs : list (call (K := Z) (S := Z) (T := Z) (I := Z))) := do_calls zops new_store cs.
Definition zlook (st : store Z Z Z Z) (w : client (K := Z) (S := Z) (T := Z)) : client :=
  (snd (look full st (fst w)), client_receive zops (snd w) (watch_message (to_metadata (fun x => x)) (to_metadata (fun x => x)) (fst (look full st (fst w))))).
Lemma zlook_looks st w : client_looks zops (fun x => x) st w (zlook st w).
Proof. destruct w as [last s]. apply cl_look. apply shuffled_refl. Qed.
Definition spec_meta := mkFlag true false true.
Definition zconv (v : object Z Z Z Z) : Z * Z * Z := (o_key v, o_spec v, o_item v).
Definition zkey (v : Z * Z * Z) : Z := fst (fst v).
Lemma zconv_fit : fit spec_meta zconv zkey.
Proof. split; [reflexivity|]. intros v v' A B. injection B as B C. unfold zconv. congruence. Qed.
Definition zspu (st : store Z Z Z Z) (w : spu (K := Z) (Z * Z * Z)) : spu (Z * Z * Z) :=
  if has_change st (fst w) then
    if is_empty (fst (look spec_meta st (fst w))) then (snd (look spec_meta st (fst w)), snd w)
    else (snd (look spec_meta st (fst w)), spu_receive zops zkey (snd w) (watch_message zconv zconv (fst (look spec_meta st (fst w)))))
  else w.
Lemma zspu_looks st w : spu_looks zops spec_meta zconv zkey st w (zspu st w).
Proof.
  destruct w as [last s]. unfold zspu. cbn [fst snd]. destruct (has_change st last) eqn:H; [|apply sl_skip; exact H].
  destruct (is_empty (fst (look spec_meta st last))) eqn:E; [apply sl_empty; assumption|apply sl_look; [assumption..|apply shuffled_refl]].
Qed.

Definition one_call := [Full [a1; b1]].
Definition w1 := zlook (zstore one_call) new_client.
Definition p1 := zspu (zstore one_call) new_spu.
Definition some_calls := [Apply [Mod a2; Delete 2]; Apply [Mod c1; Mod a1; Mod a3]].
Lemma zclient_calls cs w : client_runs zops (fun x => x) new_store w -> client_runs zops (fun x => x) (zstore cs) w.
Proof. intros H. apply client_runs_calls. exact H. Qed.
Lemma w1_runs : client_runs zops (fun x => x) (zstore one_call) w1.
Proof. eapply cr_look; [|apply zlook_looks]. apply zclient_calls. constructor. Qed.
Lemma p1_runs : spu_runs zops spec_meta zconv zkey (zstore one_call) p1.
Proof. eapply sr_look; [|apply zspu_looks]. apply spu_runs_calls. constructor. Qed.
Ltac byk := intros k; unfold seen, contents, client_view, spu_view; cbn; repeat match goal with |- context [?x =? ?y] => destruct (x =? y) end; reflexivity.
Lemma w1_same : same (client_view zops w1) (seen zops (shown (fun x => x)) (zstore one_call)).
Proof. byk. Qed.
Lemma p1_same : same (spu_view zops p1) (seen zops zconv (zstore one_call)).
Proof. byk. Qed.
Notation st1 := (zstore one_call).
Notation st2 := (do_calls zops st1 some_calls).
Definition w2 := zlook st2 w1.
Definition p2 := zspu st2 p1.
Lemma w2_same : same (client_view zops w2) (seen zops (shown (fun x => x)) st2).
Proof. byk. Qed.
Lemma p2_same : same (spu_view zops p2) (seen zops zconv st2).
Proof. byk. Qed.
