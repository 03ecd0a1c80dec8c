From Verif Require Import Base.
Require Import List Lia. Import ListNotations.
From Verif Require Import FvmModel FvmSpec.

Lemma ceqb_eq : forall a b, channel_eqb a b = true <-> a = b.
Proof.
  intros [| |x|x] [| |y|y]; simpl; split; intro H; try discriminate; try reflexivity;
    try (apply Z.eqb_eq in H; now subst); inversion H; apply Z.eqb_refl.
Qed.
Lemma ceqb_refl : forall a, channel_eqb a a = true.
Proof. intro a. now apply ceqb_eq. Qed.
Lemma ceqb_ne : forall a b, a <> b -> channel_eqb a b = false.
Proof. intros a b N. destruct (channel_eqb a b) eqn:E; [|reflexivity]. apply ceqb_eq in E. contradiction. Qed.

Section Maps.
  Context {V : Type}.
  Lemma get_del_same : forall k (l : list (Z * V)), get k (del k l) = None.
  Proof. intros k l. induction l as [|[x v] t IH]; simpl; [reflexivity|]. destruct (x =? k) eqn:E; simpl; [exact IH|]. now rewrite E. Qed.
  Lemma get_del_other : forall k n (l : list (Z * V)), n <> k -> get n (del k l) = get n l.
  Proof.
    intros k n l N. induction l as [|[x v] t IH]; simpl; [reflexivity|].
    destruct (x =? k) eqn:E; simpl.
    - apply Z.eqb_eq in E. subst x. destruct (k =? n) eqn:E2; [apply Z.eqb_eq in E2; congruence | exact IH].
    - destruct (x =? n); [reflexivity | exact IH].
  Qed.
  Lemma get_put_same : forall k v (l : list (Z * V)), get k (put k v l) = Some v.
  Proof. intros. unfold put. simpl. now rewrite Z.eqb_refl. Qed.
  Lemma get_put_other : forall k n v (l : list (Z * V)), n <> k -> get n (put k v l) = get n l.
  Proof.
    intros k n v l N. unfold put. simpl. destruct (k =? n) eqn:E; [apply Z.eqb_eq in E; congruence|].
    now apply get_del_other.
  Qed.
  Lemma del_del : forall k (l : list (Z * V)), del k (del k l) = del k l.
  Proof.
    intros k l. induction l as [|[x v] t IH]; simpl; [reflexivity|].
    destruct (x =? k) eqn:E; simpl; [exact IH|]. rewrite E. simpl. now f_equal.
  Qed.
  Lemma put_del : forall k v (l : list (Z * V)), put k v (del k l) = put k v l.
  Proof. intros. unfold put. now rewrite del_del. Qed.
  Lemma in_del : forall k e (l : list (Z * V)), In e (del k l) -> In e l.
  Proof. intros k e l H. unfold del in H. now apply filter_In in H. Qed.
  Lemma get_in : forall k v (l : list (Z * V)), get k l = Some v -> In (k, v) l.
  Proof.
    intros k v l. induction l as [|[x w] t IH]; simpl; [discriminate|]. intro H.
    destruct (x =? k) eqn:E; [apply Z.eqb_eq in E; inversion H; subst; now left | right; now apply IH].
  Qed.
  Lemma in_get : forall k v (l : list (Z * V)), NoDup (map fst l) -> In (k, v) l -> get k l = Some v.
  Proof.
    intros k v l. induction l as [|[x w] t IH]; simpl; [intros _ []|]. intros N I0.
    inversion N as [|? ? Nx Nt]; subst. destruct I0 as [I0 | I0].
    - inversion I0; subst. now rewrite Z.eqb_refl.
    - destruct (x =? k) eqn:E; [|now apply IH]. apply Z.eqb_eq in E. subst x. exfalso. apply Nx.
      change k with (fst (k, v)). now apply in_map.
  Qed.
  Lemma get_none : forall k (l : list (Z * V)), get k l = None <-> ~ In k (map fst l).
  Proof.
    intros k l. induction l as [|[x w] t IH]; simpl; [tauto|].
    destruct (x =? k) eqn:E.
    - apply Z.eqb_eq in E. split; [discriminate | intro H; exfalso; apply H; now left].
    - apply Z.eqb_neq in E. rewrite IH. tauto.
  Qed.
  Lemma nodup_del : forall k (l : list (Z * V)), NoDup (map fst l) -> NoDup (map fst (del k l)).
  Proof.
    intros k l. induction l as [|[x w] t IH]; simpl; [auto|]. intro N. inversion N as [|? ? Nx Nt]; subst.
    destruct (negb (x =? k)); simpl; [|now apply IH]. constructor; [|now apply IH].
    intro H. apply Nx. apply in_map_iff in H. destruct H as (e & E & I0). rewrite <- E. apply in_map. eapply in_del; eauto.
  Qed.
  Lemma nodup_put : forall k v (l : list (Z * V)), NoDup (map fst l) -> NoDup (map fst (put k v l)).
  Proof.
    intros k v l N. unfold put. simpl. constructor; [|now apply nodup_del].
    apply get_none. apply get_del_same.
  Qed.
  Lemma cget_cdel_same : forall k (l : list (channel * V)), cget k (cdel k l) = None.
  Proof. intros k l. induction l as [|[x v] t IH]; simpl; [reflexivity|]. destruct (channel_eqb x k) eqn:E; simpl; [exact IH|]. now rewrite E. Qed.
  Lemma cget_cdel_other : forall k n (l : list (channel * V)), n <> k -> cget n (cdel k l) = cget n l.
  Proof.
    intros k n l N. induction l as [|[x v] t IH]; simpl; [reflexivity|].
    destruct (channel_eqb x k) eqn:E; simpl.
    - apply ceqb_eq in E. subst x. rewrite (ceqb_ne k n) by congruence. exact IH.
    - destruct (channel_eqb x n); [reflexivity | exact IH].
  Qed.
  Lemma cget_cput_same : forall k v (l : list (channel * V)), cget k (cput k v l) = Some v.
  Proof. intros. unfold cput. simpl. now rewrite ceqb_refl. Qed.
  Lemma cget_cput_other : forall k n v (l : list (channel * V)), n <> k -> cget n (cput k v l) = cget n l.
  Proof. intros k n v l N. unfold cput. simpl. rewrite (ceqb_ne k n) by congruence. now apply cget_cdel_other. Qed.
  Lemma cget_in : forall k v (l : list (channel * V)), cget k l = Some v -> In (k, v) l.
  Proof.
    intros k v l. induction l as [|[x w] t IH]; simpl; [discriminate|]. intro H.
    destruct (channel_eqb x k) eqn:E; [apply ceqb_eq in E; inversion H; subst; now left | right; now apply IH].
  Qed.
  Lemma in_cget : forall k v (l : list (channel * V)), NoDup (map fst l) -> In (k, v) l -> cget k l = Some v.
  Proof.
    intros k v l. induction l as [|[x w] t IH]; simpl; [intros _ []|]. intros N I0.
    inversion N as [|? ? Nx Nt]; subst. destruct I0 as [I0 | I0].
    - inversion I0; subst. now rewrite ceqb_refl.
    - destruct (channel_eqb x k) eqn:E; [|now apply IH]. apply ceqb_eq in E. subst x. exfalso. apply Nx.
      change k with (fst (k, v)). now apply in_map.
  Qed.
  Lemma in_cdel : forall k e (l : list (channel * V)), In e (cdel k l) -> In e l /\ fst e <> k.
  Proof.
    intros k e l H. unfold cdel in H. apply filter_In in H. destruct H as [H1 H2]. split; [exact H1|].
    intro E. subst k. rewrite ceqb_refl in H2. discriminate.
  Qed.
  Lemma nodup_cdel : forall k (l : list (channel * V)), NoDup (map fst l) -> NoDup (map fst (cdel k l)).
  Proof.
    intros k l. induction l as [|[x w] t IH]; simpl; [auto|]. intro N. inversion N as [|? ? Nx Nt]; subst.
    destruct (negb (channel_eqb x k)); simpl; [|now apply IH]. constructor; [|now apply IH].
    intro H. apply Nx. apply in_map_iff in H. destruct H as (e & E & I0). rewrite <- E. apply in_map.
    now apply in_cdel in I0.
  Qed.
  Lemma nodup_cput : forall k v (l : list (channel * V)), NoDup (map fst l) -> NoDup (map fst (cput k v l)).
  Proof.
    intros k v l N. unfold cput. simpl. constructor; [|now apply nodup_cdel].
    intro H. apply in_map_iff in H. destruct H as (e & E & I0). apply in_cdel in I0. destruct I0 as [_ I0]. congruence.
  Qed.
End Maps.

(** ** Changes *)
Lemma dir_eq : forall c l b s, dir c (mkHome (Some l) b s) = cget c l.
Proof. reflexivity. Qed.
Lemma dir_in_dir : forall c f h c', dir c' (in_dir c f h) = if channel_eqb c c' then option_map f (dir c h) else dir c' h.
Proof.
  intros c f h c'. unfold in_dir. destruct (channel_eqb c c') eqn:E.
  - apply ceqb_eq in E. subst c'. destruct (dir c h) eqn:D; [|exact D]. rewrite dir_eq. now rewrite cget_cput_same.
  - destruct (dir c h) eqn:D; [|reflexivity]. rewrite dir_eq. apply cget_cput_other.
    intro X. subst. rewrite ceqb_refl in E. discriminate.
Qed.
Lemma bins_in_dir : forall c f h, h_bins (in_dir c f h) = h_bins h.
Proof. intros. unfold in_dir. now destruct (dir c h). Qed.
Lemma settings_in_dir : forall c f h, h_settings (in_dir c f h) = h_settings h.
Proof. intros. unfold in_dir. now destruct (dir c h). Qed.
Lemma versions_in_dir : forall c f h, h_versions h <> None -> h_versions (in_dir c f h) <> None.
Proof. intros. unfold in_dir. destruct (dir c h); simpl; congruence. Qed.

Lemma wf_in_dir : forall c f h, wf h -> (forall d, NoDup (map fst (d_files d)) -> NoDup (map fst (d_files (f d)))) -> wf (in_dir c f h).
Proof.
  intros c f h [W1 W2] F. unfold in_dir. destruct (dir c h) as [d|] eqn:D; [|split; assumption].
  split; unfold dirs at 1; simpl.
  - apply (nodup_cput c (f d)) in W1. exact W1.
  - intros c' d' [I0 | I0].
    + inversion I0; subst. apply F. apply (W2 c'). now apply cget_in.
    + apply in_cdel in I0. destruct I0 as [I0 _]. exact (W2 _ _ I0).
Qed.
Lemma wf_apply : forall o h, wf h -> wf (apply o h).
Proof.
  intros o h W. destruct o; simpl; try exact W; try (apply wf_in_dir; [exact W|]; intros d N; cbn [d_files]; solve [auto using nodup_del | apply nodup_put; exact N]).
  - destruct W as [W1 W2]. split; unfold dirs at 1; simpl.
    + apply (nodup_cput c (mkDir [] Missing)) in W1. exact W1.
    + intros c' d' [I0 | I0]; [inversion I0; subst; constructor|]. apply in_cdel in I0. exact (W2 _ _ (proj1 I0)).
  - destruct W as [W1 W2]. split; unfold dirs at 1; simpl; [now apply nodup_cdel|].
    intros c' d' I0. apply in_cdel in I0. exact (W2 _ _ (proj1 I0)).
Qed.
Lemma wf_torn : forall k o h, wf h -> wf (torn k o h).
Proof. intros k o h W. destruct o; simpl; try exact W. apply wf_in_dir; [exact W|]. auto. Qed.
Lemma wf_run : forall l h, wf h -> wf (run l h).
Proof. induction l as [|o t IH]; simpl; intros h W; [exact W|]. apply IH. now apply wf_apply. Qed.
Lemma wf_cut : forall n k l h, wf h -> wf (cut n k l h).
Proof. intros n k l h W. unfold cut. destruct (nth_error l n); [apply wf_torn|]; now apply wf_run. Qed.
Lemma run_app : forall a b h, run (a ++ b) h = run b (run a h).
Proof. induction a; simpl; intros; [reflexivity|]. apply IHa. Qed.

(** which directory a change is in *)
Definition within (c : channel) (o : op) : Prop :=
  match o with
  | MkDir x | RmFile x _ | PutFile x _ _ | WriteManifest x _ | RmManifest x | RmDir x => x = c
  | _ => True
  end.
Lemma within_apply : forall c o h c', within c o -> c' <> c -> dir c' (apply o h) = dir c' h.
Proof.
  intros c o h c' W N.
  destruct o; simpl in W |- *; subst; try reflexivity; try (rewrite dir_in_dir, ceqb_ne by congruence; reflexivity);
    rewrite dir_eq; [now apply cget_cput_other | now apply cget_cdel_other].
Qed.
Lemma within_torn : forall c k o h c', within c o -> c' <> c -> dir c' (torn k o h) = dir c' h.
Proof.
  intros c k o h c' W N. destruct o; simpl in W |- *; subst; try reflexivity.
  rewrite dir_in_dir, ceqb_ne by congruence. reflexivity.
Qed.
Lemma within_run : forall c l h c', Forall (within c) l -> c' <> c -> dir c' (run l h) = dir c' h.
Proof.
  intros c l. induction l as [|o t IH]; simpl; intros h c' F N; [reflexivity|]. inversion F; subst.
  rewrite (IH _ c') by assumption. now apply (within_apply c).
Qed.
Lemma forall_firstn : forall {A} (P : A -> Prop) n l, Forall P l -> Forall P (firstn n l).
Proof. intros A P n l F. revert n. induction F; intros [|n]; simpl; constructor; auto. Qed.
Lemma forall_nth : forall {A} (P : A -> Prop) l n x, Forall P l -> nth_error l n = Some x -> P x.
Proof. intros A P l n x F H. apply nth_error_In in H. rewrite Forall_forall in F. auto. Qed.
Lemma within_cut : forall c n k l h c', Forall (within c) l -> c' <> c -> dir c' (cut n k l h) = dir c' h.
Proof.
  intros c n k l h c' F N. unfold cut. destruct (nth_error l n) as [o|] eqn:E.
  - rewrite (within_torn c); [|exact (forall_nth _ _ _ _ F E) | exact N]. apply (within_run c); [now apply forall_firstn | exact N].
  - apply (within_run c); [now apply forall_firstn | exact N].
Qed.

(** ** Parts of commands *)
Lemma fst_seq : forall (p q : part) h, fst (seq p q h) = fst (p h) ++ (if snd (p h) then fst (q (run (fst (p h)) h)) else []).
Proof.
  intros p q h. unfold seq. destruct (p h) as [o1 [|]]; simpl; [|now rewrite app_nil_r].
  now destruct (q (run o1 h)).
Qed.
Lemma seq_forall : forall (P : op -> Prop) (p q : part) h,
  Forall P (fst (p h)) -> (snd (p h) = true -> Forall P (fst (q (run (fst (p h)) h)))) -> Forall P (fst (seq p q h)).
Proof.
  intros P p q h H1 H2. rewrite fst_seq. apply Forall_app. split; [exact H1|].
  destruct (snd (p h)) eqn:E; [auto | constructor].
Qed.

Lemma copies_dirs : forall fs bs h, h_versions (run (copies fs bs) h) = h_versions h /\ h_settings (run (copies fs bs) h) = h_settings h.
Proof.
  intros fs bs. induction fs as [|[f b] t IH]; intro h; [split; reflexivity|].
  unfold copies. simpl. rewrite <- !app_assoc. rewrite !run_app. fold (copies t bs).
  destruct (IH (run [PutBin f b] (run (if get f bs then [RmBin f] else []) h))) as [I1 I2].
  rewrite I1, I2. destruct (get f bs); split; reflexivity.
Qed.
Lemma copies_bins : forall fs bs h f, NoDup (map fst fs) ->
  get f (h_bins (run (copies fs bs) h)) = match get f fs with Some b => Some b | None => get f (h_bins h) end.
Proof.
  intros fs bs. induction fs as [|[x b] t IH]; intros h f N; [reflexivity|].
  simpl in N. inversion N as [|? ? Nx Nt]; subst.
  unfold copies. simpl. rewrite <- !app_assoc. rewrite !run_app. fold (copies t bs). rewrite IH by exact Nt.
  assert (B : get f (h_bins (run [PutBin x b] (run (if get x bs then [RmBin x] else []) h))) = if x =? f then Some b else get f (h_bins h)).
  { simpl. destruct (x =? f) eqn:E.
    - apply Z.eqb_eq in E. subst x. reflexivity.
    - apply Z.eqb_neq in E. rewrite get_del_other by congruence.
      destruct (get x bs); simpl; [apply get_del_other; congruence | reflexivity]. }
  simpl in B |- *. rewrite B. destruct (x =? f) eqn:E; [|reflexivity].
  apply Z.eqb_eq in E. subst x. apply get_none in Nx. now rewrite Nx.
Qed.
Lemma copies_within : forall c fs bs, Forall (within c) (copies fs bs).
Proof.
  intros c fs bs. apply Forall_forall. intros o H. unfold copies in H. apply in_flat_map in H.
  destruct H as (e & _ & H). apply in_app_or in H. destruct H as [H | H].
  - destruct (get (fst e) bs); [destruct H as [H | []]; now subst o | destruct H].
  - destruct H as [H | []]. now subst o.
Qed.
Lemma copies_in : forall fs bs o, In o (copies fs bs) -> (exists f, o = RmBin f) \/ exists f b, o = PutBin f b /\ In (f, b) fs.
Proof.
  intros fs bs o H. unfold copies in H. apply in_flat_map in H.
  destruct H as ([f b] & I0 & H). apply in_app_or in H. destruct H as [H | H].
  - destruct (get (fst (f, b)) bs); [destruct H as [H | []]; left; now exists f | destruct H].
  - destruct H as [H | []]. right. now exists f, b.
Qed.

Lemma open_dir : forall c h fs m, open c h = Some (fs, m) <-> exists d, dir c h = Some d /\ d_files d = fs /\ d_manifest d = Holds m.
Proof.
  intros c h fs m. unfold open. destruct (dir c h) as [[f x]|]; simpl.
  - destruct x; (split; [intro H; try discriminate; inversion H; subst; eexists; repeat split; reflexivity
                        | intros (d & E & F & M); inversion E; subst; simpl in *; try discriminate; now inversion M]).
  - split; [discriminate | intros (d & E & _); discriminate].
Qed.

(** activating *)
Definition activated (c : channel) (m : manifest) (fs : list (Z * bytes)) (h h' : home) : Prop :=
  h_versions h' = h_versions h /\
  h_settings h' = Set_ (Some (m_channel m)) (Some (m_version m)) /\
  forall f, bin f h' = match get f fs with Some b => Some b | None => bin f h end.
Lemma active_ok : forall c h fs m, open c h = Some (fs, m) -> NoDup (map fst fs) -> h_settings h <> Broken ->
  exists o, set_active c h = (o, true) /\ activated c m fs h (run o h).
Proof.
  intros c h fs m O N B. unfold set_active. rewrite O.
  set (l := WriteSettings (Some (m_channel m)) (Some (m_version m))).
  assert (G : forall o, (forall h', h_versions (run o h') = h_versions h' /\ h_bins (run o h') = h_bins h' /\
                          h_settings (run o h') = Set_ (Some (m_channel m)) (Some (m_version m))) ->
              activated c m fs h (run (copies fs (h_bins h) ++ o) h)).
  { intros o G. rewrite run_app. destruct (G (run (copies fs (h_bins h)) h)) as (G1 & G2 & G3).
    repeat split; [rewrite G1; apply copies_dirs | exact G3 |].
    intro f. unfold bin. rewrite G2. now apply copies_bins. }
  destruct (h_settings h) eqn:E; [| contradiction |].
  - eexists. split; [reflexivity|]. apply G. intro h'. repeat split.
  - eexists. split; [reflexivity|]. apply G. intro h'. repeat split.
Qed.
Lemma active_within : forall c h, Forall (within c) (fst (set_active c h)).
Proof.
  intros c h. unfold set_active. destruct (open c h) as [[fs m]|]; [|constructor].
  destruct (h_settings h); simpl; try apply copies_within; apply Forall_app;
    (split; [apply copies_within | repeat constructor]).
Qed.

(** storing *)
Section D.
Context (digest : bytes -> bytes).

Lemma download_none : forall l tmp, (exists a, In a l /\ fetched digest a = None) -> download digest l tmp = None.
Proof.
  induction l as [|a t IH]; simpl; intros tmp (x & I0 & F); [destruct I0|].
  destruct I0 as [I0 | I0]; [subst; now rewrite F|].
  destruct (fetched digest a); [|reflexivity]. apply IH. now exists x.
Qed.
Lemma download_some : forall l tmp, (forall a, In a l -> fetched digest a <> None) -> exists r, download digest l tmp = Some r.
Proof.
  induction l as [|a t IH]; simpl; intros tmp F; [now exists tmp|].
  destruct (fetched digest a) as [b|] eqn:E; [apply IH; auto|]. exfalso. apply (F a); auto.
Qed.
Lemma download_sound : forall l tmp r, download digest l tmp = Some r -> forall a, In a l -> fetched digest a <> None.
Proof.
  intros l tmp r D a I0 E. rewrite (download_none l tmp) in D; [discriminate|]. now exists a.
Qed.
Lemma download_get : forall l tmp r, download digest l tmp = Some r -> NoDup (map a_name l) ->
  (forall a, In a l -> get (a_name a) r = fetched digest a) /\ (forall n, ~ In n (map a_name l) -> get n r = get n tmp).
Proof.
  induction l as [|a t IH]; simpl; intros tmp r D N.
  - inversion D; subst. split; [intros a [] | auto].
  - inversion N as [|? ? Na Nt]; subst. destruct (fetched digest a) as [b|] eqn:E; [|discriminate].
    destruct (IH _ _ D Nt) as [H1 H2]. split.
    + intros x [I0 | I0]; [subst x | now apply H1]. rewrite (H2 _ Na), get_put_same. now rewrite E.
    + intros n Nn. rewrite H2 by tauto. apply get_put_other. intro X. subst. tauto.
Qed.
Lemma download_from : forall l tmp r f b, download digest l tmp = Some r -> get f r = Some b ->
  get f tmp = Some b \/ exists a, In a l /\ a_name a = f /\ fetched digest a = Some b.
Proof.
  induction l as [|a t IH]; simpl; intros tmp r f b D G; [inversion D; subst; auto|].
  destruct (fetched digest a) as [x|] eqn:E; [|discriminate].
  destruct (IH _ _ _ _ D G) as [H | (y & I0 & A & F)].
  - destruct (Z.eq_dec f (a_name a)) as [X | X].
    + subst f. rewrite get_put_same in H. inversion H; subst. right. exists a. auto.
    + rewrite get_put_other in H by exact X. now left.
  - right. exists y. auto.
Qed.

Lemma store_in : forall c l tmp fs o, In o (fst (store c l tmp fs)) ->
  (exists f, o = RmFile c f) \/ exists f b, o = PutFile c f b /\ get f tmp = Some b.
Proof.
  intros c. induction l as [|a t IH]; simpl; intros tmp fs o H; [destruct H|].
  destruct (get (a_name a) tmp) as [b|] eqn:G.
  - destruct (store c t (del (a_name a) tmp) (put (a_name a) b fs)) as [o' ok] eqn:S. simpl in H.
    apply in_app_or in H. destruct H as [H | [H | H]].
    + destruct (get (a_name a) fs); [destruct H as [H | []]; left; eexists; now rewrite <- H | destruct H].
    + right. exists (a_name a), b. auto.
    + specialize (IH (del (a_name a) tmp) (put (a_name a) b fs) o). rewrite S in IH. destruct (IH H) as [I0 | (f & y & E & G')].
      * now left.
      * right. exists f, y. split; [exact E|]. destruct (Z.eq_dec f (a_name a)) as [X | X].
        { subst f. rewrite get_del_same in G'. discriminate. }
        now rewrite get_del_other in G' by exact X.
  - simpl in H. destruct (get (a_name a) fs); [destruct H as [H | []]; left; eexists; now rewrite <- H | destruct H].
Qed.

Definition same_besides (c : channel) (h h' : home) : Prop :=
  (forall c', c' <> c -> dir c' h' = dir c' h) /\ h_bins h' = h_bins h /\ h_settings h' = h_settings h.
Lemma same_trans : forall c a b d, same_besides c a b -> same_besides c b d -> same_besides c a d.
Proof.
  intros c a b d (A1 & A2 & A3) (B1 & B2 & B3). repeat split; [|congruence|congruence].
  intros c' N. rewrite B1 by exact N. now apply A1.
Qed.
Lemma in_dir_same : forall c f h, same_besides c h (in_dir c f h).
Proof.
  intros c f h. repeat split; [|apply bins_in_dir | apply settings_in_dir].
  intros c' N. rewrite dir_in_dir, ceqb_ne by congruence. reflexivity.
Qed.

Lemma store_ok : forall c l tmp h d, dir c h = Some d -> NoDup (map a_name l) ->
  (forall a, In a l -> get (a_name a) tmp <> None) ->
  exists o d', store c l tmp (d_files d) = (o, true) /\ same_besides c h (run o h) /\ dir c (run o h) = Some d' /\
    d_manifest d' = d_manifest d /\
    (forall f, In f (map a_name l) -> get f (d_files d') = get f tmp) /\
    (forall f, ~ In f (map a_name l) -> get f (d_files d') = get f (d_files d)).
Proof.
  intro c. induction l as [|a t IH]; intros tmp h d D N T.
  - exists [], d. repeat split; auto. intros f [].
  - simpl in N. inversion N as [|? ? Na Nt]; subst. simpl.
    destruct (get (a_name a) tmp) as [b|] eqn:G; [|exfalso; apply (T a); simpl; auto].
    set (rm := if get (a_name a) (d_files d) then [RmFile c (a_name a)] else []).
    set (h1 := run (rm ++ [PutFile c (a_name a) b]) h).
    assert (D1 : dir c h1 = Some (mkDir (put (a_name a) b (d_files d)) (d_manifest d)) /\ same_besides c h h1).
    { unfold h1. rewrite run_app. unfold rm. destruct (get (a_name a) (d_files d)) eqn:E; simpl; split.
      - rewrite dir_in_dir, ceqb_refl, dir_in_dir, ceqb_refl, D. simpl. now rewrite put_del.
      - eapply same_trans; apply in_dir_same.
      - rewrite dir_in_dir, ceqb_refl, D. reflexivity.
      - apply in_dir_same. }
    destruct D1 as [D1 S1].
    destruct (IH (del (a_name a) tmp) h1 _ D1 Nt) as (o & d' & S & S2 & D' & M & F1 & F2).
    { intros x I0. rewrite get_del_other; [apply T; simpl; auto|]. intro X. apply Na. rewrite <- X. now apply in_map. }
    cbn [d_files d_manifest] in S, M, F1, F2. rewrite S. exists (rm ++ PutFile c (a_name a) b :: o), d'.
    assert (R : run (rm ++ PutFile c (a_name a) b :: o) h = run o h1).
    { unfold h1. change (PutFile c (a_name a) b :: o) with ([PutFile c (a_name a) b] ++ o).
      now rewrite app_assoc, run_app. }
    rewrite R. split; [reflexivity|]. split; [eapply same_trans; eassumption|]. split; [exact D'|]. split; [exact M|].
    split.
    + intros f [J | J]; [|rewrite F1 by exact J; apply get_del_other; intro X; subst; contradiction].
      subst f. rewrite F2 by exact Na. rewrite get_put_same. now rewrite G.
    + intros f J. rewrite F2 by (intro K; apply J; now right). apply get_put_other. intro X. apply J. now left.
Qed.

Lemma versions_dir : forall c h d, dir c h = Some d -> h_versions h <> None.
Proof. intros c h d D. unfold dir, dirs in D. destruct (h_versions h); [discriminate | discriminate D]. Qed.

Lemma ds_ok : forall c l h, h_versions h <> None -> sound digest l ->
  exists o d', download_store digest c l h = (o, true) /\ same_besides c h (run o h) /\ dir c (run o h) = Some d' /\
    d_manifest d' = match dir c h with Some d => d_manifest d | None => Missing end /\
    (forall a, In a l -> get (a_name a) (d_files d') = fetched digest a) /\
    (forall f, ~ In f (map a_name l) -> get f (d_files d') = file c f h).
Proof.
  intros c l h V [N F]. unfold download_store. destruct (download_some l [] F) as [tmp T]. rewrite T.
  destruct (download_get l [] tmp T N) as [T1 T2].
  assert (FIN : forall h0 d0 o0, dir c h0 = Some d0 -> same_besides c h h0 -> h0 = run o0 h ->
    d_manifest d0 = match dir c h with Some d => d_manifest d | None => Missing end ->
    (forall f, get f (d_files d0) = file c f h) ->
    make_dir c h = (o0, true) ->
    exists o d', seq (make_dir c) (fun h1 => store c l tmp (files c h1)) h = (o, true) /\ same_besides c h (run o h) /\ dir c (run o h) = Some d' /\
    d_manifest d' = match dir c h with Some d => d_manifest d | None => Missing end /\
    (forall a, In a l -> get (a_name a) (d_files d') = fetched digest a) /\
    (forall f, ~ In f (map a_name l) -> get f (d_files d') = file c f h)).
  { intros h0 d0 o0 D0 S0 R0 M0 F0 MK. unfold seq. rewrite MK. rewrite <- R0. unfold files. rewrite D0.
    destruct (store_ok c l tmp h0 d0 D0 N) as (o & d' & S & S2 & D' & M & G1 & G2).
    { intros a I0. rewrite T1 by exact I0. now apply F. }
    rewrite S. exists (o0 ++ o), d'. rewrite run_app, <- R0. split; [reflexivity|].
    split; [eapply same_trans; eassumption|]. split; [exact D'|]. split; [congruence|]. split.
    - intros a I0. rewrite G1 by now apply in_map. now apply T1.
    - intros f J. rewrite G2 by exact J. apply F0. }
  destruct (dir c h) as [d|] eqn:D.
  - apply (FIN h d []); auto.
    + repeat split.
    + intro f. unfold file, files. now rewrite D.
    + unfold make_dir. now rewrite D.
  - apply (FIN (apply (MkDir c) h) (mkDir [] Missing) [MkDir c]); auto.
    + simpl. rewrite dir_eq. apply cget_cput_same.
    + repeat split. intros c' X. simpl. rewrite dir_eq. now apply cget_cput_other.
    + intro f. unfold file, files. now rewrite D.
    + unfold make_dir. rewrite D. destruct (h_versions h); [reflexivity | contradiction].
Qed.
Lemma ds_fail : forall c l h, (exists a, In a l /\ fetched digest a = None) -> download_store digest c l h = ([], false).
Proof. intros c l h H. unfold download_store. now rewrite (download_none l [] H). Qed.
Lemma make_dir_within : forall c h, Forall (within c) (fst (make_dir c h)).
Proof. intros. unfold make_dir. destruct (dir c h); [|destruct (h_versions h)]; repeat constructor. Qed.
Lemma ds_within : forall c l h, Forall (within c) (fst (download_store digest c l h)).
Proof.
  intros c l h. unfold download_store. destruct (download digest l []) as [tmp|]; [|constructor].
  apply seq_forall; [apply make_dir_within|]. intros _. apply Forall_forall. intros o H. apply store_in in H.
  destruct H as [(f & E) | (f & b & E & _)]; now subst o.
Qed.

Lemma nodup_files : forall c h d, wf h -> dir c h = Some d -> NoDup (map fst (d_files d)).
Proof. intros c h d [_ W] D. apply (W c). now apply cget_in. Qed.

(** what an installation or an update of [c] leaves *)
Definition placed (c : channel) (l : list artifact) (m : manifest) (h h' : home) : Prop :=
  exists d', dir c h' = Some d' /\ d_manifest d' = Holds m /\
    (forall c', c' <> c -> dir c' h' = dir c' h) /\
    (forall a, In a l -> get (a_name a) (d_files d') = fetched digest a) /\
    (forall f, ~ In f (map a_name l) -> get f (d_files d') = file c f h) /\
    (forall f, bin f h' = match get f (d_files d') with Some b => Some b | None => bin f h end) /\
    h_settings h' = Set_ (Some (m_channel m)) (Some (m_version m)) /\ wf h'.

Lemma finish_write : forall c l h o d' m, wf h -> h_settings h <> Broken ->
  same_besides c h (run o h) -> dir c (run o h) = Some d' ->
  (forall a, In a l -> get (a_name a) (d_files d') = fetched digest a) ->
  (forall f, ~ In f (map a_name l) -> get f (d_files d') = file c f h) ->
  exists o2, (seq (fun _ => ([WriteManifest c m], true)) (set_active c)) (run o h) = (o2, true) /\ placed c l m h (run o2 (run o h)).
Proof.
  intros c l h o d' m W B (S1 & S2 & S3) D' A O.
  set (h2 := apply (WriteManifest c m) (run o h)).
  assert (D2 : dir c h2 = Some (mkDir (d_files d') (Holds m))).
  { unfold h2. simpl. now rewrite dir_in_dir, ceqb_refl, D'. }
  assert (W2 : wf h2) by (apply wf_apply; now apply wf_run).
  assert (B2 : h_settings h2 <> Broken).
  { unfold h2. simpl. rewrite settings_in_dir. congruence. }
  destruct (active_ok c h2 (d_files d') m) as (o3 & E & V & ST & BI).
  - apply open_dir. exists (mkDir (d_files d') (Holds m)). repeat split. exact D2.
  - pose proof (nodup_files c h2 _ W2 D2) as X. exact X.
  - exact B2.
  - exists ([WriteManifest c m] ++ o3). unfold seq. simpl run at 1. change (in_dir c (fun d => mkDir (d_files d) (Holds m)) (run o h)) with h2.
    rewrite E. split; [reflexivity|]. rewrite run_app. simpl run at 2. change (in_dir c (fun d => mkDir (d_files d) (Holds m)) (run o h)) with h2.
    assert (DD : forall c', dir c' (run o3 h2) = dir c' h2) by (intro c'; unfold dir, dirs; now rewrite V).
    exists (mkDir (d_files d') (Holds m)). rewrite DD. split; [exact D2|]. split; [reflexivity|]. split.
    { intros c' N. rewrite DD. unfold h2. rewrite (within_apply c) by (simpl; auto). now apply S1. }
    split; [exact A|]. split; [exact O|]. split.
    { intro f. rewrite BI. simpl. destruct (get f (d_files d')); [reflexivity|]. unfold bin, h2. simpl. rewrite bins_in_dir. now rewrite S2. }
    split; [exact ST|]. now apply wf_run.
Qed.

Definition new_manifest (c : channel) (l : list artifact) : manifest := mkManifest c (set_version l) (Some (contents_of l)).
Lemma installer_ok : forall c l h, wf h -> h_settings h <> Broken -> h_versions h <> None -> sound digest l ->
  exists o, installer digest c l h = (o, true) /\ placed c l (new_manifest c l) h (run o h).
Proof.
  intros c l h W B V S. unfold installer.
  destruct (ds_ok c l h V S) as (o & d' & E & SB & D' & _ & A & O).
  destruct (finish_write c l h o d' (new_manifest c l) W B SB D' A O) as (o2 & E2 & P).
  unfold seq at 1. rewrite E. change (write_new c l) with (fun _ : home => ([WriteManifest c (new_manifest c l)], true)).
  rewrite E2. exists (o ++ o2). rewrite run_app. split; [reflexivity | exact P].
Qed.
Lemma installer_fail : forall c l h, (exists a, In a l /\ fetched digest a = None) -> installer digest c l h = ([], false).
Proof. intros c l h H. unfold installer, seq at 1. now rewrite ds_fail. Qed.
Lemma installer_within : forall c l h, Forall (within c) (fst (installer digest c l h)).
Proof.
  intros c l h. unfold installer. apply seq_forall; [apply ds_within|]. intros _. apply seq_forall.
  - unfold write_new. repeat constructor.
  - intros _. apply active_within.
Qed.
Lemma updater_ok : forall c l h fs m, wf h -> h_settings h <> Broken -> sound digest l -> open c h = Some (fs, m) ->
  exists o, updater digest c l h = (o, true) /\
    placed c l (mkManifest (m_channel m) (m_version m) (match m_contents m with Some cs => Some (patched l cs) | None => None end)) h (run o h).
Proof.
  intros c l h fs m W B S OP. apply open_dir in OP. destruct OP as (d & D & FS & M). unfold updater.
  destruct (ds_ok c l h (versions_dir _ _ _ D) S) as (o & d' & E & SB & D' & M' & A & O). rewrite D in M'.
  set (m' := mkManifest (m_channel m) (m_version m) (match m_contents m with Some cs => Some (patched l cs) | None => None end)).
  destruct (finish_write c l h o d' m' W B SB D' A O) as (o2 & E2 & P).
  unfold seq at 1. rewrite E.
  assert (R : rewrite_manifest c l (run o h) = ([WriteManifest c m'], true)).
  { unfold rewrite_manifest. assert (OO : open c (run o h) = Some (d_files d', m)).
    { apply open_dir. exists d'. repeat split; [exact D' | congruence]. }
    now rewrite OO. }
  assert (R2 : seq (rewrite_manifest c l) (set_active c) (run o h) = (o2, true)).
  { unfold seq in *. now rewrite R. }
  rewrite R2. exists (o ++ o2). rewrite run_app. split; [reflexivity | exact P].
Qed.
Lemma updater_fail : forall c l h, (exists a, In a l /\ fetched digest a = None) -> updater digest c l h = ([], false).
Proof. intros c l h H. unfold updater, seq at 1. now rewrite ds_fail. Qed.
Lemma rewrite_within : forall c l h, Forall (within c) (fst (rewrite_manifest c l h)).
Proof. intros. unfold rewrite_manifest. destruct (open c h) as [[fs m]|]; repeat constructor. Qed.
Lemma updater_within : forall c l h, Forall (within c) (fst (updater digest c l h)).
Proof.
  intros c l h. unfold updater. apply seq_forall; [apply ds_within|]. intros _. apply seq_forall; [apply rewrite_within|].
  intros _. apply active_within.
Qed.
End D.
