From Verif Require Import Base.
Require Import List Lia. Import ListNotations.
From Verif Require Import FvmModel FvmSpec FvmProofs.

Section Claims.
Context (digest : bytes -> bytes).
Notation after := (after digest). Notation says := (says digest). Notation changes := (changes digest).

Lemma published_fetched : forall a b, fetched digest a = Some b -> a_data a = Some b /\ a_sum a = digest b.
Proof.
  intros a b H. unfold fetched in H. destruct (a_data a) as [x|]; [|discriminate].
  destruct (list_eq_dec Z.eq_dec (digest x) (a_sum a)) as [E|]; [|discriminate]. inversion H; subst. auto.
Qed.

(** ** Installing *)
Lemma placed_installed : forall c l h h', placed digest c l (new_manifest c l) h h' -> (forall a, In a l -> fetched digest a <> None) -> installed digest c l h'.
Proof.
  intros c l h h' (d & D & M & O & A & F & B & S & W) Fe. split; [|split].
  - intros a I0. specialize (A a I0). split.
    + unfold file, files. now rewrite D.
    + rewrite B, A. destruct (fetched digest a) eqn:E; [reflexivity | exfalso; now apply (Fe a)].
  - exists (d_files d). apply open_dir. exists d. auto.
  - unfold current. now rewrite S.
Qed.
Lemma make_versions_home : forall h, let h' := run (fst (make_versions h)) h in
  snd (make_versions h) = true /\ dirs h' = dirs h /\ h_bins h' = h_bins h /\ h_settings h' = h_settings h /\ h_versions h' <> None.
Proof.
  intro h. unfold make_versions. destruct (h_versions h) eqn:E; simpl; repeat split; rewrite ?E; try discriminate.
Qed.
Lemma wf_dirs : forall h h', dirs h' = dirs h -> wf h -> wf h'.
Proof. intros h h' E W. unfold wf. now rewrite E. Qed.
Lemma install_unfold : forall c l h, changes (Install c (Some l)) h =
  finish (fst (make_versions h) ++ fst (installer digest c l (run (fst (make_versions h)) h)), snd (installer digest c l (run (fst (make_versions h)) h))).
Proof.
  intros c l h. cbn [FvmSpec.changes]. unfold install, seq. destruct (make_versions_home h) as (E & _).
  destruct (make_versions h) as [o ok]. cbn [fst snd] in *. subst ok. cbn [fst snd].
  destruct (installer digest c l (run o h)); reflexivity.
Qed.

Lemma install_placed : forall c l h, wf h -> h_settings h <> Broken -> sound digest l ->
  says (Install c (Some l)) h = Done /\ placed digest c l (new_manifest c l) h (after (Install c (Some l)) h).
Proof.
  intros c l h W B S. unfold FvmSpec.says, FvmSpec.after. rewrite install_unfold.
  destruct (make_versions_home h) as (_ & H2 & H3 & H4 & H5).
  set (h1 := run (fst (make_versions h)) h) in *.
  destruct (installer_ok digest c l h1) as (o & E & P); [now apply (wf_dirs h) | congruence | exact H5 | exact S |].
  rewrite E. simpl. split; [reflexivity|]. rewrite run_app. fold h1.
  destruct P as (d & D & M & O & A & F & BI & ST & W').
  exists d. split; [exact D|]. split; [exact M|]. split.
  - intros c' N. rewrite O by exact N. unfold dir. now rewrite H2.
  - split; [exact A|]. split.
    + intros f N. rewrite F by exact N. unfold file, files, dir. now rewrite H2.
    + split; [|split; assumption]. intro f. rewrite BI. unfold bin. now rewrite H3.
Qed.
Lemma install_done : forall c l h, wf h -> h_settings h <> Broken -> sound digest l ->
  says (Install c (Some l)) h = Done /\ installed digest c l (after (Install c (Some l)) h) /\
  in_use c (after (Install c (Some l)) h) /\
  forall c', c' <> c -> dir c' (after (Install c (Some l)) h) = dir c' h.
Proof.
  intros c l h W B S. destruct (install_placed c l h W B S) as [H P]. split; [exact H|].
  split; [eapply placed_installed; [exact P | apply S]|].
  destruct P as (d & D & M & O & A & F & BI & ST & W'). split; [|exact O].
  intros f b H'. rewrite BI. unfold file, files in H'. rewrite D in H'. now rewrite H'.
Qed.
Lemma refused : forall c f h,
  match f with Some l => exists a, In a l /\ fetched digest a = None | None => True end ->
  says (Install c f) h = Failed /\ dirs (after (Install c f) h) = dirs h /\
  h_bins (after (Install c f) h) = h_bins h /\ h_settings (after (Install c f) h) = h_settings h.
Proof.
  intros c f h H. destruct (make_versions_home h) as (H1 & H2 & H3 & H4 & H5). destruct f as [l|].
  - unfold FvmSpec.says, FvmSpec.after. rewrite install_unfold. rewrite (installer_fail digest c l _ H). simpl.
    rewrite app_nil_r. auto.
  - unfold FvmSpec.says, FvmSpec.after. cbn [FvmSpec.changes]. unfold install, seq. destruct (make_versions h) as [o ok].
    cbn [fst snd] in *. subst ok. cbn [fst snd finish]. rewrite app_nil_r. auto.
Qed.

(** interrupted, and again *)
Lemma again : forall c l h n k, wf h -> sound digest l ->
  let h' := cut n k (fst (changes (Install c (Some l)) h)) h in
  h_settings h' <> Broken ->
  says (Install c (Some l)) h' = Done /\ installed digest c l (after (Install c (Some l)) h') /\
  in_use c (after (Install c (Some l)) h').
Proof.
  intros c l h n k W S h' B. destruct (install_done c l h') as (A1 & A2 & A3 & _); [|exact B | exact S | auto].
  apply wf_cut. exact W.
Qed.

(** ** One channel at a time *)
Lemma uninstall_within : forall c h, Forall (within c) (fst (uninstall c h)).
Proof.
  intros c h. unfold uninstall. destruct (dir c h); [|constructor]. destruct (open c h) as [[fs m]|]; simpl; [|constructor].
  apply Forall_app. split; [|repeat constructor]. apply Forall_forall. intros o H. apply in_map_iff in H.
  destruct H as (e & E & _). now subst o.
Qed.
Lemma switch_within : forall c h, Forall (within c) (fst (switch c h)).
Proof. intros c h. unfold switch. destruct (dir c h); [apply active_within | constructor]. Qed.
Lemma install_within : forall c f h, Forall (within c) (fst (install digest c f h)).
Proof.
  intros c f h. unfold install, finish. cbn [fst]. apply seq_forall.
  - unfold make_versions. destruct (h_versions h); repeat constructor.
  - intros _. destruct f; [apply installer_within | constructor].
Qed.
Lemma others : forall x c n k h c', x = Switch c \/ x = Uninstall c \/ (exists f, x = Install c f) -> c' <> c ->
  dir c' (cut n k (fst (changes x h)) h) = dir c' h.
Proof.
  intros x c n k h c' [E | [E | (f & E)]] N; subst x; cbn [FvmSpec.changes]; apply (within_cut c); try exact N;
    [apply switch_within | apply uninstall_within | apply install_within].
Qed.
Lemma update_within : forall f h c, (exists v, h_settings h = Set_ (Some c) v) -> Forall (within c) (fst (update digest f h)).
Proof.
  intros f h c (v & E). unfold update. rewrite E. destruct (static c); [constructor|]. destruct f as [l|]; [|constructor].
  destruct v as [v|]; [|constructor].
  assert (G : Forall (within c) (fst
     (if v <? set_version l then finish (installer digest c l h)
      else if v =? set_version l then
        match open c h with
        | Some (_, m) => match m_contents m with
                         | None => ([], Failed)
                         | Some cs => match diff cs l with [] => ([], Done) | ups => finish (updater digest c ups h) end
                         end
        | None => ([], Failed)
        end else ([], Done)))).
  { destruct (v <? set_version l); [apply installer_within|]. destruct (v =? set_version l); [|constructor].
    destruct (open c h) as [[fs m]|]; [|constructor]. destruct (m_contents m) as [cs|]; [|constructor].
    destruct (diff cs l); [constructor | apply updater_within]. }
  destruct c; try exact G. destruct (set_version l =? v); [constructor | apply installer_within].
Qed.
Lemma others_update : forall c v f n k h c', h_settings h = Set_ (Some c) v -> c' <> c ->
  dir c' (cut n k (fst (changes (Update f) h)) h) = dir c' h.
Proof. intros c v f n k h c' E N. apply (within_cut c); [|exact N]. apply update_within. now exists v. Qed.

(** ** Where files come from *)
Definition art (L : list artifact) (f : Z) (b : bytes) : Prop := exists a, In a L /\ a_name a = f /\ fetched digest a = Some b.
Definition fine (h : home) (L : list artifact) (o : op) : Prop :=
  match o with
  | PutFile _ f b => art L f b
  | PutBin f b => (exists c d, dir c h = Some d /\ In (f, b) (d_files d)) \/ art L f b
  | _ => True
  end.
Lemma fine_file_apply : forall h0 L o h c d f b, fine h0 L o -> dir c (apply o h) = Some d -> In (f, b) (d_files d) ->
  (exists d0, dir c h = Some d0 /\ In (f, b) (d_files d0)) \/ art L f b.
Proof.
  intros h0 L o h c d f b F D I0.
  destruct o; simpl in F, D; try (left; exists d; split; [exact D | exact I0]);
    try (rewrite dir_in_dir in D; destruct (channel_eqb c0 c) eqn:E;
         [apply ceqb_eq in E; subst c0; destruct (dir c h) as [d0|] eqn:D0; [|discriminate D]; simpl in D; inversion D; subst d; simpl in I0
         | left; exists d; split; [exact D | exact I0]]).
  - rewrite dir_eq in D. destruct (channel_eqb c0 c) eqn:E.
    + apply ceqb_eq in E. subst c0. rewrite cget_cput_same in D. inversion D; subst. destruct I0.
    + rewrite cget_cput_other in D by (intro X; subst; rewrite ceqb_refl in E; discriminate). left. exists d. auto.
  - left. exists d0. split; [reflexivity|]. eapply in_del; eassumption.
  - destruct I0 as [I0 | I0].
    + inversion I0; subst. now right.
    + left. exists d0. split; [reflexivity|]. eapply in_del; eassumption.
  - left. exists d0. auto.
  - left. exists d0. auto.
  - rewrite dir_eq in D. destruct (channel_eqb c0 c) eqn:E.
    + apply ceqb_eq in E. subst c0. now rewrite cget_cdel_same in D.
    + rewrite cget_cdel_other in D by (intro X; subst; rewrite ceqb_refl in E; discriminate). left. exists d. auto.
Qed.
Lemma fine_file_run : forall h0 L l h c d f b, Forall (fine h0 L) l -> dir c (run l h) = Some d -> In (f, b) (d_files d) ->
  (exists d0, dir c h = Some d0 /\ In (f, b) (d_files d0)) \/ art L f b.
Proof.
  intros h0 L. induction l as [|o t IH]; simpl; intros h c d f b F D I0; [left; exists d; auto|].
  inversion F as [|? ? F1 F2]; subst. destruct (IH _ _ _ _ _ F2 D I0) as [(d1 & D1 & I1) | A]; [|now right].
  eapply fine_file_apply; eassumption.
Qed.
Lemma fine_file_torn : forall k o h c d f b, dir c (torn k o h) = Some d -> In (f, b) (d_files d) ->
  exists d0, dir c h = Some d0 /\ In (f, b) (d_files d0).
Proof.
  intros k o h c d f b D I0. destruct o; simpl in D; try (exists d; split; [exact D | exact I0]).
  rewrite dir_in_dir in D. destruct (channel_eqb c0 c) eqn:E; [|exists d; auto].
  apply ceqb_eq in E. subst c0. destruct (dir c h) as [d0|]; [|discriminate D]. simpl in D. inversion D; subst d. exists d0. auto.
Qed.
Definition origin (h : home) (L : list artifact) (f : Z) (b : bytes) : Prop :=
  (exists c d, dir c h = Some d /\ In (f, b) (d_files d)) \/ art L f b.
Lemma fine_bin_run : forall h0 L l h f b, Forall (fine h0 L) l -> bin f (run l h) = Some b ->
  bin f h = Some b \/ origin h0 L f b.
Proof.
  intros h0 L. induction l as [|o t IH]; simpl; intros h f b F B; [now left|].
  inversion F as [|? ? F1 F2]; subst. destruct (IH _ _ _ F2 B) as [B1 | A]; [|now right].
  unfold bin in *. destruct o; simpl in B1, F1; try (now left); try (rewrite bins_in_dir in B1; now left).
  - destruct (Z.eq_dec f f0) as [X | X]; [subst; rewrite get_del_same in B1; discriminate|].
    rewrite get_del_other in B1 by exact X. now left.
  - change (get f (put f0 b0 (h_bins h)) = Some b) in B1.
    destruct (Z.eq_dec f f0) as [X | X].
    + subst. rewrite get_put_same in B1. inversion B1; subst. now right.
    + rewrite get_put_other in B1 by exact X. now left.
Qed.
Lemma fine_weaken : forall h L L' o, (forall a, In a L -> In a L') -> fine h L o -> fine h L' o.
Proof.
  intros h L L' o S F. destruct o; simpl in *; auto.
  - destruct F as (a & I0 & R). exists a. auto.
  - destruct F as [F | (a & I0 & R)]; [now left | right; exists a; auto].
Qed.
Lemma fine_seq : forall L (p q : part) h, (forall h, Forall (fine h L) (fst (p h))) -> (forall h, Forall (fine h L) (fst (q h))) ->
  Forall (fine h L) (fst (seq p q h)).
Proof.
  intros L p q h P Q. apply seq_forall; [apply P|]. intros _. specialize (P h). set (h1 := run (fst (p h)) h).
  specialize (Q h1). eapply Forall_impl; [|exact Q]. intros o F. destruct o; simpl in *; auto.
  destruct F as [(c & d & D & I0) | A]; [|now right].
  destruct (fine_file_run _ _ _ _ _ _ _ _ P D I0) as [(d0 & D0 & I1) | A]; [left; exists c, d0; auto | now right].
Qed.
Lemma fine_active : forall L c h, Forall (fine h L) (fst (set_active c h)).
Proof.
  intros L c h. unfold set_active. destruct (open c h) as [[fs m]|] eqn:O; [|constructor].
  apply open_dir in O. destruct O as (d & D & FS & M).
  assert (C : Forall (fine h L) (copies fs (h_bins h))).
  { apply Forall_forall. intros o H. apply copies_in in H. destruct H as [(f & E) | (f & b & E & I0)]; subst o; simpl; auto.
    left. exists c, d. subst fs. auto. }
  destruct (h_settings h); simpl; [apply Forall_app; split; [exact C | repeat constructor] | exact C
    | apply Forall_app; split; [exact C | repeat constructor]].
Qed.
Lemma fine_ds : forall L c h, Forall (fine h L) (fst (download_store digest c L h)).
Proof.
  intros L c h. unfold download_store. destruct (download digest L []) as [tmp|] eqn:T; [|constructor].
  apply (fine_seq L (make_dir c) (fun h1 => store c L tmp (files c h1))).
  - intro h1. unfold make_dir. destruct (dir c h1); [|destruct (h_versions h1)]; repeat constructor.
  - intro h1. apply Forall_forall. intros o H. apply store_in in H. destruct H as [(f & E) | (f & b & E & G)]; subst o; simpl; auto.
    destruct (download_from digest L [] tmp f b T G) as [X | X]; [discriminate X | exact X].
Qed.
Lemma fine_installer : forall L c h, Forall (fine h L) (fst (installer digest c L h)).
Proof.
  intros L c h. unfold installer. apply fine_seq; intro; [apply fine_ds|]. apply fine_seq; intro; [repeat constructor | apply fine_active].
Qed.
Lemma fine_updater : forall L c h, Forall (fine h L) (fst (updater digest c L h)).
Proof.
  intros L c h. unfold updater. apply fine_seq; intro; [apply fine_ds|]. apply fine_seq; intro.
  - unfold rewrite_manifest. destruct (open c h1) as [[? ?]|]; repeat constructor.
  - apply fine_active.
Qed.
Lemma unique_in : forall l a, In a (unique l) -> In a l.
Proof.
  induction l as [|x t IH]; simpl; intros a H; [destruct H|].
  destruct (existsb _ t); [right; now apply IH|]. destruct H as [H | H]; [now left | right; now apply IH].
Qed.
Lemma diff_in : forall cs l a, In a (diff cs l) -> In a l.
Proof. intros cs l a H. unfold diff in H. apply filter_In in H. now apply unique_in. Qed.
Lemma fine_update : forall f h, Forall (fine h (offered (Update f))) (fst (update digest f h)).
Proof.
  intros f h. unfold update. destruct (h_settings h) as [| |[c|] v]; try (repeat constructor; fail).
  destruct (static c); [constructor|]. destruct f as [l|]; [|constructor]. destruct v as [v|]; [|constructor]. simpl offered.
  assert (G : Forall (fine h l) (fst
     (if v <? set_version l then finish (installer digest c l h)
      else if v =? set_version l then
        match open c h with
        | Some (_, m) => match m_contents m with
                         | None => ([], Failed)
                         | Some cs => match diff cs l with [] => ([], Done) | ups => finish (updater digest c ups h) end
                         end
        | None => ([], Failed)
        end else ([], Done)))).
  { destruct (v <? set_version l); [apply fine_installer|]. destruct (v =? set_version l); [|constructor].
    destruct (open c h) as [[fs m]|]; [|constructor]. destruct (m_contents m) as [cs|]; [|constructor].
    destruct (diff cs l) as [|u us] eqn:U; [constructor|]. simpl fst.
    eapply Forall_impl; [|apply fine_updater]. intros o. apply fine_weaken. intros a I0. apply (diff_in cs). now rewrite U. }
  destruct c; try exact G. destruct (set_version l =? v); [constructor | apply fine_installer].
Qed.
Lemma fine_changes : forall x h, Forall (fine h (offered x)) (fst (changes x h)).
Proof.
  intros [c f | c | c | f] h; simpl changes.
  - unfold install, finish. cbn [fst]. apply fine_seq.
    + intro h1. unfold make_versions. destruct (h_versions h1); repeat constructor.
    + intro h1. destruct f; [apply fine_installer | constructor].
  - unfold switch. destruct (dir c h); [apply fine_active | constructor].
  - unfold uninstall. destruct (dir c h); [|constructor]. destruct (open c h) as [[fs m]|]; simpl; [|constructor].
    apply Forall_app. split; [|repeat constructor]. apply Forall_forall. intros o H. apply in_map_iff in H.
    destruct H as (e & E & _). now subst o.
  - apply fine_update.
Qed.
Lemma art_published : forall L f b, art L f b -> published digest L f b.
Proof.
  intros L f b (a & I0 & N & F). exists a. apply published_fetched in F. tauto.
Qed.
Lemma file_in : forall h c f b, wf h -> (exists d, dir c h = Some d /\ In (f, b) (d_files d)) -> file c f h = Some b.
Proof.
  intros h c f b W (d & D & I0). unfold file, files. rewrite D. apply in_get; [|exact I0]. eapply nodup_files; eassumption.
Qed.
Lemma verified_files : forall x h n k c f b, wf h ->
  file c f (cut n k (fst (changes x h)) h) = Some b -> file c f h = Some b \/ published digest (offered x) f b.
Proof.
  intros x h n k c f b W H.
  assert (E : exists d, dir c (run (firstn n (fst (changes x h))) h) = Some d /\ In (f, b) (d_files d)).
  { unfold file, files in H. destruct (dir c (cut n k (fst (changes x h)) h)) as [d|] eqn:D; [|discriminate H].
    apply get_in in H. unfold cut in D. destruct (nth_error (fst (changes x h)) n); [|exists d; auto].
    eapply fine_file_torn; eassumption. }
  destruct E as (d & D & I0).
  destruct (fine_file_run h (offered x) _ h c d f b (forall_firstn _ n _ (fine_changes x h)) D I0) as [X | X].
  - left. now apply file_in.
  - right. now apply art_published.
Qed.
Lemma verified_bins : forall x h n k f b, wf h ->
  bin f (cut n k (fst (changes x h)) h) = Some b ->
  bin f h = Some b \/ exists whole j, b = firstn j whole /\ ((exists c, file c f h = Some whole) \/ published digest (offered x) f whole).
Proof.
  intros x h n k f b W H.
  assert (G : forall y, origin h (offered x) f y -> (exists c, file c f h = Some y) \/ published digest (offered x) f y).
  { intros y [(c & d & D & I0) | A]; [left; exists c; apply file_in; [exact W | now exists d] | right; now apply art_published]. }
  assert (R : forall y, bin f (run (firstn n (fst (changes x h))) h) = Some y -> bin f h = Some y \/ origin h (offered x) f y).
  { intros y B. eapply fine_bin_run; [apply forall_firstn, fine_changes | exact B]. }
  assert (K : bin f (run (firstn n (fst (changes x h))) h) = Some b -> bin f h = Some b \/ exists whole j, b = firstn j whole /\ ((exists c, file c f h = Some whole) \/ published digest (offered x) f whole)).
  { intro B. destruct (R _ B) as [B1 | O]; [now left|]. right. exists b, (length b). rewrite firstn_all. split; [reflexivity | now apply G]. }
  unfold cut in H. destruct (nth_error (fst (changes x h)) n) as [o|] eqn:E; [|now apply K].
  pose proof (forall_nth _ _ _ _ (fine_changes x h) E) as F.
  destruct o; simpl in H, F; try (apply K; exact H); try (apply K; unfold bin in *; rewrite bins_in_dir in H; exact H).
  unfold bin in H. cbn [h_bins] in H. destruct (Z.eq_dec f f0) as [X | X].
  - subst f0. rewrite get_put_same in H. inversion H; subst b. right. exists b0, k. split; [reflexivity | now apply G].
  - rewrite get_put_other in H by exact X. now apply K.
Qed.

(** ** Switching *)
Lemma switch_done : forall c h fs m, wf h -> h_settings h <> Broken -> open c h = Some (fs, m) ->
  says (Switch c) h = Done /\ h_versions (after (Switch c) h) = h_versions h /\ in_use c (after (Switch c) h) /\
  current (after (Switch c) h) = Some (Some (m_channel m, m_version m)) /\
  forall f, file c f h = None -> bin f (after (Switch c) h) = bin f h.
Proof.
  intros c h fs m W B O. pose proof O as O'. apply open_dir in O'. destruct O' as (d & D & FS & M).
  destruct (active_ok c h fs m O) as (o & E & V & S & BI); [subst fs; eapply nodup_files; eassumption | exact B|].
  unfold FvmSpec.says, FvmSpec.after. simpl. unfold switch. rewrite D, E. simpl.
  split; [reflexivity|]. split; [exact V|].
  assert (FI : forall f, file c f h = get f fs) by (intro f; unfold file, files; now rewrite D, FS).
  split; [|split].
  - intros f b H. rewrite BI. replace (file c f (run o h)) with (get f fs) in H; [now rewrite H|].
    unfold file, files, dir, dirs. rewrite V. fold (dirs h). fold (dir c h). now rewrite D, FS.
  - unfold current. now rewrite S.
  - intros f N. rewrite BI. rewrite FI in N. now rewrite N.
Qed.
Lemma switch_missing : forall c h, dir c h = None -> after (Switch c) h = h /\ says (Switch c) h = Warned.
Proof. intros c h D. unfold FvmSpec.after, FvmSpec.says. simpl. unfold switch. rewrite D. auto. Qed.

(** ** Uninstalling *)
Lemma rmfiles_home : forall c fs h, h_bins (run (map (fun e : Z * bytes => RmFile c (fst e)) fs) h) = h_bins h /\
  h_settings (run (map (fun e : Z * bytes => RmFile c (fst e)) fs) h) = h_settings h.
Proof.
  intros c fs. induction fs as [|e t IH]; intro h; [split; reflexivity|]. simpl.
  destruct (IH (in_dir c (fun d => mkDir (del (fst e) (d_files d)) (d_manifest d)) h)) as [I1 I2]. rewrite I1, I2.
  rewrite bins_in_dir, settings_in_dir. auto.
Qed.
Lemma uninstall_done : forall c h, (exists fs m, open c h = Some (fs, m)) ->
  says (Uninstall c) h = Done /\ dir c (after (Uninstall c) h) = None /\
  (forall c', c' <> c -> dir c' (after (Uninstall c) h) = dir c' h) /\
  h_bins (after (Uninstall c) h) = h_bins h /\ h_settings (after (Uninstall c) h) = h_settings h.
Proof.
  intros c h (fs & m & O). pose proof O as O'. apply open_dir in O'. destruct O' as (d & D & FS & M).
  assert (N : forall c', c' <> c -> dir c' (after (Uninstall c) h) = dir c' h).
  { intros c' N. apply (within_run c); [apply uninstall_within | exact N]. }
  split; [|split; [|split; [exact N|]]]; unfold FvmSpec.says, FvmSpec.after; simpl; unfold uninstall; rewrite D, O; cbn [fst snd].
  - reflexivity.
  - rewrite run_app. simpl. rewrite dir_eq. apply cget_cdel_same.
  - rewrite run_app. simpl. rewrite bins_in_dir, settings_in_dir. apply rmfiles_home.
Qed.

(** ** Histories *)
Definition inv (h : home) : Prop :=
  wf h /\ h_settings h <> Broken /\
  (forall c d, dir c h = Some d -> exists m, d_manifest d = Holds m /\ m_channel m = c /\
     (forall v, h_settings h = Set_ (Some c) (Some v) -> m_version m = v /\ in_use c h)) /\
  (forall c v, h_settings h = Set_ (Some c) v -> v <> None).
Lemma inv_fresh : inv fresh.
Proof.
  split; [|split; [|split]].
  - split; [constructor | intros c d []].
  - discriminate.
  - intros c d D. discriminate D.
  - intros c v E. discriminate E.
Qed.
Lemma inv_placed : forall c l m h h', inv h -> placed digest c l m h h' -> m_channel m = c -> inv h'.
Proof.
  intros c l m h h' (W & B & D & V) (d & D1 & M & O & A & F & BI & S & W') MC. split; [exact W'|]. split; [congruence|]. split.
  - intros c' d' D'. destruct (channel_eqb c c') eqn:E.
    + apply ceqb_eq in E. subst c'. rewrite D1 in D'. inversion D'; subst d'. exists m. split; [exact M|]. split; [exact MC|].
      intros v Ev. rewrite S in Ev. injection Ev as E1 E2. split; [exact E2|]. intros f b H. rewrite BI.
      unfold file, files in H. rewrite D1 in H. now rewrite H.
    + assert (NE : c' <> c) by (intro X; subst c'; rewrite ceqb_refl in E; discriminate).
      rewrite O in D' by exact NE. destruct (D c' d' D') as (m' & M' & C' & _). exists m'. split; [exact M'|]. split; [exact C'|].
      intros v E'. rewrite S in E'. injection E' as E1 E2. congruence.
  - intros c' v E. rewrite S in E. inversion E. discriminate.
Qed.
Lemma inv_same : forall h h', inv h -> dirs h' = dirs h -> h_bins h' = h_bins h -> h_settings h' = h_settings h -> inv h'.
Proof.
  intros h h' (W & B & D & V) E1 E2 E3. split; [now apply (wf_dirs h)|]. rewrite E3. split; [exact B|]. split; [|exact V].
  intros c d H. assert (H' : dir c h = Some d) by (unfold dir in *; congruence).
  destruct (D c d H') as (m & M & C & U). exists m. split; [exact M|]. split; [exact C|]. intros v E. destruct (U v E) as [U1 U2].
  split; [exact U1|]. intros f b F. unfold bin. rewrite E2. apply U2. unfold file, files, dir in *. now rewrite E1 in F.
Qed.
Lemma sound_or : forall l, NoDup (map a_name l) -> sound digest l \/ exists a, In a l /\ fetched digest a = None.
Proof.
  intros l N. assert (H : (forall a, In a l -> fetched digest a <> None) \/ exists a, In a l /\ fetched digest a = None).
  { clear N. induction l as [|a t IH]; [left; intros a []|].
    destruct (fetched digest a) eqn:E; [|right; exists a; simpl; auto].
    destruct IH as [IH | (x & I0 & F)]; [|right; exists x; simpl; auto].
    left. intros x [I0 | I0]; [subst; congruence | auto]. }
  destruct H; [left; split; assumption | now right].
Qed.
Lemma nodup_unique : forall l, NoDup (map a_name (unique l)).
Proof.
  induction l as [|a t IH]; simpl; [constructor|]. destruct (existsb (fun x => a_name x =? a_name a) t) eqn:E; [exact IH|].
  simpl. constructor; [|exact IH]. intro H. apply in_map_iff in H. destruct H as (x & N & I0).
  apply unique_in in I0. assert (T : existsb (fun x => a_name x =? a_name a) t = true).
  { apply existsb_exists. exists x. split; [exact I0 | now apply Z.eqb_eq]. } congruence.
Qed.
Lemma nodup_filter_map : forall (p : artifact -> bool) l, NoDup (map a_name l) -> NoDup (map a_name (filter p l)).
Proof.
  intros p l. induction l as [|a t IH]; simpl; intro N; [constructor|]. inversion N as [|? ? Na Nt]; subst.
  destruct (p a); simpl; [|now apply IH]. constructor; [|now apply IH].
  intro H. apply Na. apply in_map_iff in H. destruct H as (x & E & I0). apply filter_In in I0. rewrite <- E. apply in_map. tauto.
Qed.
Lemma nodup_diff : forall cs l, NoDup (map a_name (diff cs l)).
Proof. intros cs l. apply nodup_filter_map. apply nodup_unique. Qed.

Lemma inv_installer : forall c l h, inv h -> NoDup (map a_name l) -> h_versions h <> None -> inv (run (fst (installer digest c l h)) h).
Proof.
  intros c l h V N HV. destruct (sound_or l N) as [S | S].
  - destruct (installer_ok digest c l h) as (o & E & P); [apply V | apply V | exact HV | exact S |]. rewrite E.
    eapply inv_placed; [exact V | exact P | reflexivity].
  - rewrite (installer_fail digest c l h S). exact V.
Qed.
Lemma installer_no_versions : forall c l h, h_versions h = None -> fst (installer digest c l h) = [].
Proof.
  intros c l h E. unfold installer. rewrite fst_seq. unfold download_store. destruct (download digest l []) as [tmp|]; [|reflexivity].
  unfold seq at 1 2 3. unfold make_dir. unfold dir, dirs. rewrite E. reflexivity.
Qed.
Lemma inv_installer' : forall c l h, inv h -> NoDup (map a_name l) -> inv (run (fst (installer digest c l h)) h).
Proof.
  intros c l h V N. destruct (h_versions h) eqn:E; [apply inv_installer; auto; congruence|].
  rewrite (installer_no_versions c l h E). exact V.
Qed.
Lemma inv_step : forall x h, inv h -> once x -> inv (after x h).
Proof.
  intros x h V O. unfold FvmSpec.after. destruct x as [c f | c | c | f].
  - destruct f as [l|].
    + rewrite install_unfold. simpl. rewrite run_app. destruct (make_versions_home h) as (_ & H2 & H3 & H4 & H5).
      apply inv_installer; [|exact O | exact H5]. now apply (inv_same h).
    + destruct (refused c None h I) as (_ & H2 & H3 & H4). now apply (inv_same h).
  - destruct (dir c h) as [d|] eqn:D.
    + pose proof V as V'. destruct V' as (W & B & DD & VV). destruct (DD c d D) as (m & M & C & U).
      assert (OP : open c h = Some (d_files d, m)) by (apply open_dir; exists d; auto).
      destruct (active_ok c h _ m OP) as (o & E & HV & S & BI); [eapply nodup_files; eassumption | exact B|].
      simpl. unfold switch. rewrite D, E. simpl.
      assert (ED : dirs (run o h) = dirs h) by (unfold dirs; now rewrite HV).
      split; [now apply (wf_dirs h)|]. split; [congruence|]. split.
      * intros c' d' D'. assert (D2 : dir c' h = Some d') by (unfold dir in *; congruence).
        destruct (DD c' d' D2) as (m' & M' & C' & U'). exists m'. split; [exact M'|]. split; [exact C'|].
        intros v Ev. rewrite S in Ev. injection Ev as E1 E2. assert (EC : c' = c) by congruence. rewrite EC in *.
        rewrite D in D2. injection D2 as D2. subst d'. rewrite M in M'. injection M' as M'. subst m'. split; [exact E2|].
        intros f b F. rewrite BI. unfold file, files in F. rewrite D' in F. now rewrite F.
      * intros c' v Ev. rewrite S in Ev. inversion Ev. discriminate.
    + destruct (switch_missing c h D) as [E _]. unfold FvmSpec.after in E. rewrite E. exact V.
  - destruct (open c h) as [[fs m]|] eqn:OP.
    + destruct (uninstall_done c h) as (_ & D0 & N & BI & S); [now exists fs, m|].
      unfold FvmSpec.after in *. destruct V as (W & B & DD & VV). split; [now apply wf_run|]. rewrite S. split; [exact B|]. split; [|exact VV].
      intros c' d' D'. destruct (channel_eqb c c') eqn:E; [apply ceqb_eq in E; subst c'; congruence|].
      assert (NE : c' <> c) by (intro X; subst c'; rewrite ceqb_refl in E; discriminate).
      rewrite N in D' by exact NE. destruct (DD c' d' D') as (m' & M' & C' & U). exists m'. split; [exact M'|]. split; [exact C'|].
      intros v Ev. destruct (U v Ev) as [U1 U2]. split; [exact U1|]. intros f b F. unfold bin. rewrite BI. apply U2.
      unfold file, files in *. now rewrite N in F by exact NE.
    + simpl. unfold uninstall. destruct (dir c h) eqn:D; [|exact V]. rewrite OP. exact V.
  - simpl. unfold update. destruct (h_settings h) as [| |[c|] v] eqn:S; try exact V.
    + simpl. destruct V as (W & B & DD & VV). split; [exact W|]. split; [discriminate|]. split; [|intros c' v' E; discriminate E].
      intros c d D. destruct (DD c d D) as (m & M & C & _). exists m. split; [exact M|]. split; [exact C|]. intros v E. discriminate E.
    + destruct (static c); [exact V|]. destruct f as [l|]; [|exact V]. destruct v as [v|]; [|exact V]. simpl in O.
      assert (G : inv (run (fst
         (if v <? set_version l then finish (installer digest c l h)
          else if v =? set_version l then
            match open c h with
            | Some (_, m) => match m_contents m with
                             | None => ([], Failed)
                             | Some cs => match diff cs l with [] => ([], Done) | ups => finish (updater digest c ups h) end
                             end
            | None => ([], Failed)
            end else ([], Done))) h)).
      { destruct (v <? set_version l); [now apply inv_installer'|]. destruct (v =? set_version l); [|exact V].
        destruct (open c h) as [[fs m]|] eqn:OP; [|exact V]. destruct (m_contents m) as [cs|] eqn:MC; [|exact V].
        destruct (diff cs l) as [|u us] eqn:U; [exact V|]. rewrite <- U. simpl fst.
        destruct (sound_or (diff cs l) (nodup_diff cs l)) as [SO | SO].
        - destruct (updater_ok digest c (diff cs l) h fs m) as (o & E & P); [apply V | apply V | exact SO | exact OP|].
          rewrite E. simpl. eapply inv_placed; [exact V | exact P|]. simpl. apply open_dir in OP. destruct OP as (d & D & _ & M).
          destruct V as (_ & _ & DD & _). destruct (DD c d D) as (m' & M' & C & _). congruence.
        - rewrite (updater_fail digest c _ h SO). exact V. }
      destruct c; try exact G. destruct (set_version l =? v); [exact V | now apply inv_installer'].
Qed.
Lemma inv_history : forall l h, Forall once l -> inv h -> inv (history digest l h).
Proof.
  induction l as [|x t IH]; simpl; intros h O V; [exact V|]. inversion O; subst. apply IH; [assumption|]. now apply inv_step.
Qed.
Lemma active_history : forall l c v, Forall once l -> let h := history digest l fresh in
  current h = Some (Some (c, v)) ->
  dir c h = None \/
  exists fs m, open c h = Some (fs, m) /\ m_channel m = c /\ m_version m = v /\ in_use c h.
Proof.
  intros l c v O h C. pose proof (inv_history l fresh O inv_fresh) as V. fold h in V.
  destruct (dir c h) as [d|] eqn:D; [right | now left].
  assert (S : h_settings h = Set_ (Some c) (Some v)).
  { unfold current in C. destruct (h_settings h) as [| |[x|] [y|]]; try discriminate; inversion C; reflexivity. }
  destruct V as (_ & _ & DD & _). destruct (DD c d D) as (m & M & CH & U). destruct (U v S) as [U1 U2].
  exists (d_files d), m. split; [apply open_dir; exists d; auto | auto].
Qed.

(** ** Settings that cannot be read *)
Definition keeps (p : part) : Prop := forall h, h_settings h = Broken -> h_settings (run (fst (p h)) h) = Broken.
Lemma keeps_seq : forall p q, keeps p -> keeps q -> keeps (seq p q).
Proof.
  intros p q P Q h B. rewrite fst_seq, run_app. destruct (snd (p h)); [apply Q; now apply P | simpl; now apply P].
Qed.
Lemma keeps_active : forall c, keeps (set_active c).
Proof.
  intros c h B. unfold set_active. destruct (open c h) as [[fs m]|]; [|exact B]. rewrite B. simpl.
  destruct (copies_dirs fs (h_bins h) h) as [_ E]. now rewrite E.
Qed.
Definition quiet (o : op) : Prop := match o with WriteSettings _ _ => False | _ => True end.
Lemma quiet_run : forall l h, Forall quiet l -> h_settings (run l h) = h_settings h.
Proof.
  induction l as [|o t IH]; simpl; intros h F; [reflexivity|]. inversion F as [|? ? F1 F2]; subst. rewrite IH by exact F2.
  destruct o; simpl in *; try reflexivity; try apply settings_in_dir; contradiction.
Qed.
Lemma keeps_ds : forall c l, keeps (download_store digest c l).
Proof.
  intros c l h B. rewrite quiet_run; [exact B|]. unfold download_store. destruct (download digest l []) as [tmp|]; [|constructor].
  apply seq_forall; [unfold make_dir; destruct (dir c h); [|destruct (h_versions h)]; repeat constructor|].
  intros _. apply Forall_forall. intros o H. apply store_in in H. destruct H as [(f & E) | (f & b & E & _)]; subst o; simpl; auto.
Qed.
Lemma keeps_write : forall c l, keeps (write_new c l).
Proof. intros c l h B. simpl. now rewrite settings_in_dir. Qed.
Lemma keeps_installer : forall c l, keeps (installer digest c l).
Proof. intros c l. apply keeps_seq; [apply keeps_ds|]. apply keeps_seq; [apply keeps_write | apply keeps_active]. Qed.
Lemma snd_seq : forall (p q : part) h, snd (seq p q h) = if snd (p h) then snd (q (run (fst (p h)) h)) else false.
Proof. intros p q h. unfold seq. destruct (p h) as [o [|]]; simpl; [|reflexivity]. now destruct (q (run o h)). Qed.
Lemma active_broken : forall c h, h_settings h = Broken -> snd (set_active c h) = false.
Proof. intros c h B. unfold set_active. destruct (open c h) as [[fs m]|]; [|reflexivity]. now rewrite B. Qed.
Lemma installer_broken : forall c l h, h_settings h = Broken -> snd (installer digest c l h) = false.
Proof.
  intros c l h B. unfold installer. rewrite snd_seq. destruct (snd (download_store digest c l h)); [|reflexivity].
  rewrite snd_seq. simpl snd at 1. cbv iota. apply active_broken. apply keeps_write. now apply keeps_ds.
Qed.
Lemma broken_step : forall x h, h_settings h = Broken -> h_settings (after x h) = Broken.
Proof.
  intros x h B. unfold FvmSpec.after. destruct x as [c f | c | c | f].
  - destruct f as [l|].
    + rewrite install_unfold. cbn [finish fst]. rewrite run_app. destruct (make_versions_home h) as (_ & _ & _ & H4 & _).
      apply keeps_installer. rewrite H4. exact B.
    + destruct (refused c None h I) as (_ & _ & _ & H4). unfold FvmSpec.after in H4. congruence.
  - simpl. unfold switch. destruct (dir c h); [now apply keeps_active | exact B].
  - rewrite quiet_run; [exact B|]. simpl. unfold uninstall. destruct (dir c h); [|constructor].
    destruct (open c h) as [[fs m]|]; simpl; [|constructor]. apply Forall_app. split; [|repeat constructor].
    apply Forall_forall. intros o H. apply in_map_iff in H. destruct H as (e & E & _). subst o. exact I.
  - simpl. unfold update. rewrite B. exact B.
Qed.
Lemma broken_history : forall l h, h_settings h = Broken -> h_settings (history digest l h) = Broken.
Proof. induction l as [|x t IH]; simpl; intros h B; [exact B|]. apply IH. now apply broken_step. Qed.
Lemma broken_install : forall c f h, h_settings h = Broken -> says (Install c f) h = Failed.
Proof.
  intros c f h B. unfold FvmSpec.says. destruct f as [l|].
  - rewrite install_unfold. cbn [finish snd]. rewrite installer_broken; [reflexivity|].
    destruct (make_versions_home h) as (_ & _ & _ & H4 & _). congruence.
  - destruct (refused c None h I) as (H & _). exact H.
Qed.
Lemma broken_switch : forall c h, h_settings h = Broken -> says (Switch c) h <> Done.
Proof.
  intros c h B. unfold FvmSpec.says. simpl. unfold switch. destruct (dir c h); simpl; [|discriminate].
  rewrite active_broken by exact B. discriminate.
Qed.
Lemma broken_forever : forall h l x, h_settings h = Broken ->
  current (history digest l h) = None /\
  match x with
  | Install _ _ | Update _ => says x (history digest l h) = Failed
  | Switch _ => says x (history digest l h) <> Done
  | Uninstall _ => True
  end.
Proof.
  intros h l x B. pose proof (broken_history l h B) as H. split; [unfold current; now rewrite H|].
  destruct x as [c f | c | c | f]; [now apply broken_install | now apply broken_switch | exact I |].
  unfold FvmSpec.says. simpl. unfold update. now rewrite H.
Qed.

(** ** Listing *)
Lemma scan_ok : forall act l,
  NoDup (map fst l) -> (forall c d, In (c, d) l -> exists m, d_manifest d = Holds m /\ m_channel m = c) ->
  exists ms a, scan act l = Some (ms, a) /\
    (forall m, In m ms \/ a = Some m <-> exists c d, In (c, d) l /\ d_manifest d = Holds m) /\
    (forall m, a = Some m -> act = Some (m_channel m)) /\ (forall m, In m ms -> act <> Some (m_channel m)).
Proof.
  intros act l. induction l as [|[c d] t IH]; intros N H.
  - exists [], None. split; [reflexivity|]. split; [|split; [discriminate | intros m []]].
    intro m. split; [intros [[] | X]; discriminate X | intros (c & d & [] & _)].
  - simpl in N. inversion N as [|? ? Nc Nt]; subst.
    destruct IH as (ms & a & S & R & A & B); [exact Nt | intros c' d' I0; apply (H c' d'); now right |].
    destruct (H c d) as (m & M & C); [now left|]. simpl. rewrite M, S.
    destruct (match act with Some c0 => channel_eqb c0 (m_channel m) | None => false end) eqn:E.
    + assert (E' : act = Some c).
      { destruct act as [x|]; [|discriminate]. apply ceqb_eq in E. congruence. }
      assert (AN : a = None).
      { destruct a as [y|]; [|reflexivity]. exfalso. specialize (A y eq_refl). rewrite E' in A. inversion A as [A'].
        destruct (proj1 (R y) (or_intror eq_refl)) as (c' & d' & I0 & M'). destruct (H c' d') as (m' & M2 & C2); [now right|].
        rewrite M' in M2. inversion M2; subst m'. apply Nc. rewrite A', C2. change c' with (fst (c', d')). now apply in_map. }
      subst a. exists ms, (Some m). split; [reflexivity|]. split; [|split].
      * intro x. split.
        { intros [X | X]; [destruct (proj1 (R x) (or_introl X)) as (c' & d' & I0 & M'); exists c', d'; split; [now right | exact M']|].
          inversion X; subst x. exists c, d. split; [now left | exact M]. }
        { intros (c' & d' & [I0 | I0] & M'); [inversion I0; subst; right; congruence|].
          destruct (proj2 (R x)) as [X | X]; [now exists c', d' | now left | discriminate]. }
      * intros x X. inversion X; subst x. congruence.
      * exact B.
    + exists (m :: ms), a. split; [reflexivity|]. split; [|split].
      * intro x. split.
        { intros [[X | X] | X]; [subst x; exists c, d; split; [now left | exact M] | |];
            (destruct (proj1 (R x)) as (c' & d' & I0 & M'); [tauto|]; exists c', d'; split; [now right | exact M']). }
        { intros (c' & d' & [I0 | I0] & M'); [inversion I0; subst; left; left; congruence|].
          destruct (proj2 (R x)) as [X | X]; [now exists c', d' | left; now right | now right]. }
      * exact A.
      * intros x [X | X]; [subst x | now apply B]. intro E'. rewrite E' in E. rewrite ceqb_refl in E. discriminate.
Qed.
Lemma list_history : forall l, Forall once l -> let h := history digest l fresh in
  h_versions h <> None ->
  exists ms a, listed h = Some (ms, a) /\
    (forall m, In m ms \/ a = Some m <-> exists c fs, open c h = Some (fs, m)) /\
    (forall m, a = Some m -> exists v, current h = Some (Some (m_channel m, v))) /\
    (forall m v, In m ms -> current h <> Some (Some (m_channel m, v))).
Proof.
  intros l O h HV. pose proof (inv_history l fresh O inv_fresh) as V. fold h in V. destruct V as (W & B & DD & VV).
  destruct (h_versions h) as [ds|] eqn:E; [|contradiction]. clear HV.
  assert (ED : dirs h = ds) by (unfold dirs; now rewrite E).
  assert (G : forall act, (forall c, act = Some c <-> exists v, h_settings h = Set_ (Some c) v) ->
    exists ms a, scan act ds = Some (ms, a) /\
    (forall m, In m ms \/ a = Some m <-> exists c fs, open c h = Some (fs, m)) /\
    (forall m, a = Some m -> exists v, current h = Some (Some (m_channel m, v))) /\
    (forall m v, In m ms -> current h <> Some (Some (m_channel m, v)))).
  { intros act HA. destruct (scan_ok act ds) as (ms & a & S & R & A & BB).
    - rewrite <- ED. apply W.
    - intros c d I0. destruct (DD c d) as (m & M & C & _); [|now exists m]. unfold dir. rewrite ED. apply in_cget; [rewrite <- ED; apply W | exact I0].
    - exists ms, a. split; [exact S|]. split; [|split].
      + intro m. rewrite R. split.
        * intros (c & d & I0 & M). exists c, (d_files d). apply open_dir. exists d. split; [|auto]. unfold dir. rewrite ED.
          apply in_cget; [rewrite <- ED; apply W | exact I0].
        * intros (c & fs & OP). apply open_dir in OP. destruct OP as (d & D & _ & M). exists c, d. split; [|exact M].
          rewrite <- ED. now apply cget_in.
      + intros m X. apply A in X. apply HA in X. destruct X as (v & X). unfold current. rewrite X.
        destruct v as [v|]; [now exists v | exfalso; now apply (VV _ _ X)].
      + intros m v I0 X. apply (BB m I0). apply HA. exists (Some v). unfold current in X.
        destruct (h_settings h) as [| |[x|] [y|]]; try discriminate. now injection X as -> ->. }
  unfold listed. rewrite E. destruct (h_settings h) as [| |x y] eqn:S; [|contradiction|].
  - apply G. intro c. split; [discriminate | intros (v & X); discriminate X].
  - apply G. intro c. split; [intro X; subst; now exists y | intros (v & X); now inversion X].
Qed.

(** ** The order of channels *)
Lemma cmp_anti : forall a b, ~ mixed a b -> channel_cmp b a = CompOpp (channel_cmp a b).
Proof. intros [| |x|x] [| |y|y] N; simpl in *; try reflexivity; try apply Z.compare_antisym; exfalso; now apply N. Qed.
Lemma cmp_eq : forall a b, channel_cmp a b = Eq <-> a = b.
Proof.
  intros [| |x|x] [| |y|y]; simpl; split; intro H; try discriminate; try reflexivity;
    try (apply Z.compare_eq in H; now subst); inversion H; apply Z.compare_refl.
Qed.
Lemma cmp_trans : forall a b c, ~ mixed a b -> ~ mixed b c -> ~ mixed a c ->
  channel_cmp a b = Lt -> channel_cmp b c = Lt -> channel_cmp a c = Lt.
Proof.
  intros [| |x|x] [| |y|y] [| |z|z] N1 N2 N3; simpl in *; intros H1 H2; try discriminate; try reflexivity;
    try (exfalso; now apply N1); try (exfalso; now apply N2); try (exfalso; now apply N3);
    rewrite Z.compare_lt_iff in *; lia.
Qed.

(** ** Updating *)
Lemma update_static : forall f h c v, h_settings h = Set_ (Some c) v -> static c = true -> changes (Update f) h = ([], Warned).
Proof. intros f h c v S T. simpl. unfold update. now rewrite S, T. Qed.
Lemma settings_current : forall h c v, current h = Some (Some (c, v)) -> h_settings h = Set_ (Some c) (Some v).
Proof. intros h c v C. unfold current in C. destruct (h_settings h) as [| |[x|] [y|]]; try discriminate; now inversion C. Qed.
Lemma current_wf : forall h c v, current h = Some (Some (c, v)) -> h_settings h <> Broken.
Proof. intros h c v C. rewrite (settings_current h c v C). discriminate. Qed.

Lemma update_newer : forall l h c v, wf h -> h_versions h <> None -> current h = Some (Some (c, v)) -> sound digest l ->
  (c = Stable /\ v < set_version l \/ c = Latest /\ v <> set_version l) ->
  says (Update (Some l)) h = Done /\ installed digest c l (after (Update (Some l)) h) /\ in_use c (after (Update (Some l)) h).
Proof.
  intros l h c v W HV C S H. pose proof (settings_current h c v C) as SS. pose proof (current_wf h c v C) as B.
  destruct (installer_ok digest c l h W B HV S) as (o & E & P).
  assert (X : changes (Update (Some l)) h = (o, Done)).
  { simpl. unfold update. rewrite SS. destruct H as [[H1 H2] | [H1 H2]]; subst c; simpl.
    - destruct (v <? set_version l) eqn:L; [now rewrite E | apply Z.ltb_ge in L; lia].
    - destruct (set_version l =? v) eqn:L; [apply Z.eqb_eq in L; congruence | now rewrite E]. }
  unfold FvmSpec.says, FvmSpec.after. rewrite X. simpl. split; [reflexivity|].
  split; [eapply placed_installed; [exact P | apply S]|].
  destruct P as (d & D & M & O & A & F & BI & ST & W'). intros f b H'. rewrite BI.
  unfold file, files in H'. rewrite D in H'. now rewrite H'.
Qed.
Lemma update_older : forall l h v, current h = Some (Some (Stable, v)) -> set_version l < v ->
  changes (Update (Some l)) h = ([], Done).
Proof.
  intros l h v C L. simpl. unfold update. rewrite (settings_current _ _ _ C). simpl.
  destruct (v <? set_version l) eqn:E1; [apply Z.ltb_lt in E1; lia|].
  destruct (v =? set_version l) eqn:E2; [apply Z.eqb_eq in E2; lia | reflexivity].
Qed.
Lemma update_latest_same : forall l h, current h = Some (Some (Latest, set_version l)) -> changes (Update (Some l)) h = ([], Done).
Proof. intros l h C. simpl. unfold update. rewrite (settings_current _ _ _ C). simpl. now rewrite Z.eqb_refl. Qed.
Lemma update_same : forall l h fs cs, current h = Some (Some (Stable, set_version l)) ->
  open Stable h = Some (fs, mkManifest Stable (set_version l) (Some cs)) ->
  changes (Update (Some l)) h = match diff cs l with [] => ([], Done) | ups => finish (updater digest Stable ups h) end.
Proof.
  intros l h fs cs C O. simpl. unfold update. rewrite (settings_current _ _ _ C). simpl.
  rewrite Z.ltb_irrefl, Z.eqb_refl, O. reflexivity.
Qed.
Lemma no_downgrade : forall xs l c v, Forall once xs -> NoDup (map a_name l) -> let h := history digest xs fresh in
  current h = Some (Some (c, v)) ->
  exists v', current (after (Update (Some l)) h) = Some (Some (c, v')) /\ (c = Stable -> v <= v').
Proof.
  intros xs l c v O N h C. pose proof (inv_history xs fresh O inv_fresh) as V. fold h in V.
  pose proof (settings_current h c v C) as S.
  assert (SAME : exists v', current h = Some (Some (c, v')) /\ (c = Stable -> v <= v')) by (exists v; split; [exact C | lia]).
  assert (INS : v < set_version l \/ c <> Stable -> exists v', current (run (fst (installer digest c l h)) h) = Some (Some (c, v')) /\ (c = Stable -> v <= v')).
  { intro L. destruct (sound_or l N) as [SO | SO]; [|rewrite (installer_fail digest c l h SO); exact SAME].
    destruct (h_versions h) eqn:HV; [|rewrite (installer_no_versions c l h HV); exact SAME].
    destruct (installer_ok digest c l h) as (o & E & P); [apply V | apply V | congruence | exact SO|]. rewrite E. simpl.
    destruct P as (d & D & M & OO & A & F & BI & ST & W'). exists (set_version l). unfold current. rewrite ST. simpl. split; [reflexivity|].
    intro X. destruct L; [lia | contradiction]. }
  unfold FvmSpec.after. simpl. unfold update. rewrite S. destruct (static c) eqn:T; [exact SAME|].
  destruct c; try discriminate T.
  - destruct (v <? set_version l) eqn:L; [apply INS; left; now apply Z.ltb_lt|].
    destruct (v =? set_version l); [|exact SAME]. destruct (open Stable h) as [[fs m]|] eqn:OP; [|exact SAME].
    destruct (m_contents m) as [cs|] eqn:MC; [|exact SAME]. destruct (diff cs l) as [|u us] eqn:U; [exact SAME|]. rewrite <- U. simpl fst.
    destruct (sound_or (diff cs l) (nodup_diff cs l)) as [SO | SO].
    + destruct (updater_ok digest Stable (diff cs l) h fs m) as (o & E & P); [apply V | apply V | exact SO | exact OP|].
      rewrite E. simpl. destruct P as (d & D & M & OO & A & F & BI & ST & W'). simpl in ST.
      destruct V as (_ & _ & DD & _). apply open_dir in OP. destruct OP as (d0 & D0 & _ & M0).
      destruct (DD Stable d0 D0) as (m' & M' & C' & UU). rewrite M0 in M'. inversion M'; subst m'.
      destruct (UU v S) as [UV _]. exists v. unfold current. rewrite ST. rewrite C', UV. split; [reflexivity | lia].
    + rewrite (updater_fail digest Stable _ h SO). exact SAME.
  - destruct (set_version l =? v); [exact SAME|]. apply INS. right. discriminate.
Qed.

Lemma unique_all : forall l, NoDup (map a_name l) -> unique l = l.
Proof.
  induction l as [|a t IH]; simpl; intro N; [reflexivity|]. inversion N as [|? ? Na Nt]; subst.
  destruct (existsb (fun x => a_name x =? a_name a) t) eqn:E.
  - apply existsb_exists in E. destruct E as (x & I0 & E). apply Z.eqb_eq in E. exfalso. apply Na. rewrite <- E. now apply in_map.
  - now rewrite IH.
Qed.
Lemma in_diff : forall cs l a, NoDup (map a_name l) ->
  (In a (diff cs l) <-> In a l /\ recorded (a_name a) cs <> Some (a_version a)).
Proof.
  intros cs l a N. unfold diff. rewrite unique_all by exact N. rewrite filter_In.
  destruct (recorded (a_name a) cs) as [v|].
  - rewrite Bool.negb_true_iff, Z.eqb_neq. split; intros [H1 H2]; (split; [exact H1|]); congruence.
  - split; intros [H1 H2]; (split; [exact H1|]); congruence.
Qed.
Lemma sound_diff : forall cs l, sound digest l -> sound digest (diff cs l).
Proof. intros cs l [N F]. split; [apply nodup_diff|]. intros a I0. apply F. eapply diff_in; eassumption. Qed.
Lemma update_patched : forall l h fs cs, wf h -> sound digest l -> current h = Some (Some (Stable, set_version l)) ->
  open Stable h = Some (fs, mkManifest Stable (set_version l) (Some cs)) -> diff cs l <> [] ->
  says (Update (Some l)) h = Done /\
  placed digest Stable (diff cs l) (mkManifest Stable (set_version l) (Some (patched (diff cs l) cs))) h (after (Update (Some l)) h).
Proof.
  intros l h fs cs W S C O D. unfold FvmSpec.says, FvmSpec.after. rewrite (update_same l h fs cs C O).
  destruct (diff cs l) as [|u us] eqn:U; [contradiction|]. rewrite <- U in *.
  destruct (updater_ok digest Stable (diff cs l) h fs _ W (current_wf _ _ _ C) (sound_diff cs l S) O) as (o & E & P).
  rewrite E. simpl in *. auto.
Qed.
Lemma patched_done : forall l h fs cs, wf h -> sound digest l -> current h = Some (Some (Stable, set_version l)) -> in_use Stable h ->
  open Stable h = Some (fs, mkManifest Stable (set_version l) (Some cs)) ->
  let h' := after (Update (Some l)) h in
  says (Update (Some l)) h = Done /\ current h' = current h /\ in_use Stable h' /\
  (forall a, In a l -> recorded (a_name a) cs <> Some (a_version a) ->
     file Stable (a_name a) h' = fetched digest a /\ bin (a_name a) h' = fetched digest a) /\
  (forall f, (forall a, In a l -> a_name a = f -> recorded f cs = Some (a_version a)) -> file Stable f h' = file Stable f h).
Proof.
  intros l h fs cs W S C IU O h'. destruct (diff cs l) as [|u us] eqn:U.
  - assert (X : changes (Update (Some l)) h = ([], Done)) by (rewrite (update_same l h fs cs C O), U; reflexivity).
    unfold h', FvmSpec.says, FvmSpec.after. rewrite X. simpl. split; [reflexivity|]. split; [reflexivity|]. split; [exact IU|]. split; [|auto].
    intros a I0 R. exfalso. assert (J : In a (diff cs l)) by (apply in_diff; [apply S | auto]). rewrite U in J. destruct J.
  - assert (D : diff cs l <> []) by (rewrite U; discriminate).
    destruct (update_patched l h fs cs W S C O D) as [SA P]. fold h' in P. split; [exact SA|].
    destruct P as (d & D1 & M & OO & A & F & BI & ST & W'). simpl in ST. split; [unfold current at 1; rewrite ST; now rewrite C|].
    assert (FI : forall f, file Stable f h' = get f (d_files d)) by (intro f; unfold file, files; now rewrite D1).
    split; [|split].
    + intros f b H'. rewrite BI. rewrite FI in H'. now rewrite H'.
    + intros a I0 R. assert (J : In a (diff cs l)) by (apply in_diff; [apply S | auto]).
      rewrite FI, BI, (A a J). split; [reflexivity|]. destruct (fetched digest a) eqn:E; [reflexivity|]. exfalso. now apply (proj2 S a).
    + intros f N. rewrite FI. apply F. intro H. apply in_map_iff in H. destruct H as (a & E & J). apply in_diff in J; [|apply S].
      destruct J as [J1 J2]. apply J2. rewrite E. now apply N.
Qed.
Lemma get_app : forall {V} k (a b : list (Z * V)), get k (a ++ b) = match get k a with Some x => Some x | None => get k b end.
Proof. intros V k a b. induction a as [|[x v] t IH]; simpl; [reflexivity|]. destruct (x =? k); [reflexivity | exact IH]. Qed.
Lemma find_name : forall n l a, find (fun x => a_name x =? n) l = Some a -> In a l /\ a_name a = n.
Proof. intros n l a H. apply find_some in H. destruct H as [H1 H2]. apply Z.eqb_eq in H2. auto. Qed.
Lemma recorded_patched : forall ups cs n, recorded n (patched ups cs) =
  match recorded n cs with
  | None => None
  | Some v => Some (match find (fun a => a_name a =? n) ups with Some a => a_version a | None => v end)
  end.
Proof.
  intros ups cs n. unfold recorded, patched. rewrite <- map_rev. induction (rev cs) as [|[x v] t IH]; simpl; [reflexivity|].
  destruct (find (fun a => a_name a =? x) ups) as [a|] eqn:E.
  - destruct (find_name _ _ _ E) as [_ N]. rewrite N. destruct (x =? n) eqn:X; [|exact IH].
    apply Z.eqb_eq in X. rewrite <- X. now rewrite E.
  - destruct (x =? n) eqn:X; [|exact IH]. apply Z.eqb_eq in X. rewrite <- X. now rewrite E.
Qed.
Lemma find_unique : forall l a, NoDup (map a_name l) -> In a l -> find (fun x => a_name x =? a_name a) l = Some a.
Proof.
  induction l as [|x t IH]; simpl; intros a N I0; [destruct I0|]. inversion N as [|? ? Nx Nt]; subst.
  destruct I0 as [I0 | I0]; [subst; now rewrite Z.eqb_refl|].
  destruct (a_name x =? a_name a) eqn:E; [|now apply IH]. apply Z.eqb_eq in E. exfalso. apply Nx. rewrite E. now apply in_map.
Qed.
Lemma settled : forall l h fs cs, wf h -> sound digest l -> current h = Some (Some (Stable, set_version l)) ->
  open Stable h = Some (fs, mkManifest Stable (set_version l) (Some cs)) ->
  (forall a, In a l -> recorded (a_name a) cs <> None) ->
  changes (Update (Some l)) (after (Update (Some l)) h) = ([], Done).
Proof.
  intros l h fs cs W S C O R. destruct (diff cs l) as [|u us] eqn:U.
  - assert (X : changes (Update (Some l)) h = ([], Done)) by (rewrite (update_same l h fs cs C O), U; reflexivity).
    unfold FvmSpec.after. rewrite X. exact X.
  - assert (D : diff cs l <> []) by (rewrite U; discriminate).
    destruct (update_patched l h fs cs W S C O D) as [_ (d & D1 & M & OO & A & F & BI & ST & W')].
    rewrite (update_same l _ (d_files d) (patched (diff cs l) cs)).
    + destruct (diff (patched (diff cs l) cs) l) as [|y ys] eqn:Y; [reflexivity|]. exfalso.
      assert (J : In y (diff (patched (diff cs l) cs) l)) by (rewrite Y; now left).
      apply in_diff in J; [|apply S]. destruct J as [J1 J2]. apply J2. rewrite recorded_patched.
      destruct (recorded (a_name y) cs) as [v|] eqn:E; [|exfalso; now apply (R y J1)]. f_equal.
      destruct (find (fun a => a_name a =? a_name y) (diff cs l)) as [z|] eqn:Fz.
      * destruct (find_name _ _ _ Fz) as [Z1 Z2]. apply diff_in in Z1.
        pose proof (find_unique l y (proj1 S) J1) as G1. pose proof (find_unique l z (proj1 S) Z1) as G2. rewrite Z2 in G2. congruence.
      * destruct (Z.eq_dec v (a_version y)) as [X | X]; [exact X|]. exfalso.
        assert (K : In y (diff cs l)) by (apply in_diff; [apply S | split; [exact J1 | congruence]]).
        rewrite (find_unique _ y (nodup_diff cs l) K) in Fz. discriminate.
    + unfold current. now rewrite ST.
    + apply open_dir. exists d. auto.
Qed.
Lemma never_settled : forall l h fs cs a, wf h -> sound digest l -> current h = Some (Some (Stable, set_version l)) ->
  open Stable h = Some (fs, mkManifest Stable (set_version l) (Some cs)) ->
  In a l -> recorded (a_name a) cs = None ->
  exists fs' cs', open Stable (after (Update (Some l)) h) = Some (fs', mkManifest Stable (set_version l) (Some cs')) /\
    recorded (a_name a) cs' = None /\ In a (diff cs' l).
Proof.
  intros l h fs cs a W S C O I0 R.
  assert (J : In a (diff cs l)) by (apply in_diff; [apply S | split; [exact I0 | congruence]]).
  assert (D : diff cs l <> []) by (intro X; rewrite X in J; destruct J).
  destruct (update_patched l h fs cs W S C O D) as [_ (d & D1 & M & OO & A & F & BI & ST & W')].
  exists (d_files d), (patched (diff cs l) cs). split; [apply open_dir; exists d; auto|].
  assert (R' : recorded (a_name a) (patched (diff cs l) cs) = None) by (rewrite recorded_patched; now rewrite R).
  split; [exact R'|]. apply in_diff; [apply S|]. split; [exact I0 | congruence].
Qed.
Lemma no_contents : forall l h fs, current h = Some (Some (Stable, set_version l)) ->
  open Stable h = Some (fs, mkManifest Stable (set_version l) None) -> changes (Update (Some l)) h = ([], Failed).
Proof.
  intros l h fs C O. simpl. unfold update. rewrite (settings_current _ _ _ C). simpl.
  rewrite Z.ltb_irrefl, Z.eqb_refl, O. reflexivity.
Qed.
Lemma update_uninstalled : forall l h, current h = Some (Some (Stable, set_version l)) -> dir Stable h = None ->
  changes (Update (Some l)) h = ([], Failed).
Proof.
  intros l h C D. simpl. unfold update. rewrite (settings_current _ _ _ C). simpl.
  rewrite Z.ltb_irrefl, Z.eqb_refl. unfold open. now rewrite D.
Qed.
Lemma up_to_date : forall l h c v, current h = Some (Some (c, v)) ->
  (c = Stable /\ set_version l < v \/ c = Latest /\ v = set_version l) ->
  changes (Update (Some l)) h = ([], Done).
Proof.
  intros l h c v C [[H1 H2] | [H1 H2]]; subst; [now apply (update_older l h v) | now apply update_latest_same].
Qed.
End Claims.

(** ** Cases *)
Definition same (b : bytes) : bytes := b.
Definition one (n v : Z) (b : bytes) : artifact := mkArtifact n v (Some b) b.
Definition set1 : list artifact := [one 0 1 [10; 11]; one 7 1 [12]].
Definition set2 : list artifact := [one 0 2 [20]].
Definition set3 : list artifact := [one 0 1 [10; 11]; one 7 3 [32]].
Definition set4 : list artifact := [one 0 1 [10; 11]; one 7 1 [12]; one 8 1 [13]].
Definition home1 : home := history same [Install Stable (Some set1)] fresh.
Definition home2 : home := history same [Install Latest (Some set2); Install Stable (Some set1)] fresh.

Lemma wf_history : forall digest l h, wf h -> wf (history digest l h).
Proof. intros digest l. induction l as [|x t IH]; simpl; intros h W; [exact W|]. apply IH. now apply wf_run. Qed.
Lemma wf_fresh : wf fresh.
Proof. split; [constructor | intros c d []]. Qed.
Lemma sound_set1 : sound same set1.
Proof. split; [repeat constructor; simpl; intuition congruence|]. intros a [E | [E | []]]; subst a; discriminate. Qed.
Lemma sound_set3 : sound same set3.
Proof. split; [repeat constructor; simpl; intuition congruence|]. intros a [E | [E | []]]; subst a; discriminate. Qed.
Lemma sound_set4 : sound same set4.
Proof. split; [repeat constructor; simpl; intuition congruence|]. intros a [E | [E | [E | []]]]; subst a; discriminate. Qed.

Lemma torn_refuted : exists l n k, sound same l /\
  let h := cut n k (fst (changes same (Install Stable (Some l)) fresh)) fresh in
  forall xs x,
  current (history same xs h) = None /\
  match x with
  | Install _ _ | Update _ => says same x (history same xs h) = Failed
  | Switch _ => says same x (history same xs h) <> Done
  | Uninstall _ => True
  end.
Proof.
  exists set1, 8%nat, 1%nat. split; [exact sound_set1|]. intros h xs x. apply broken_forever. vm_compute. reflexivity.
Qed.
Lemma stale_refuted :
  let h := history same [Install Stable (Some set1); Install Stable (Some set2)] fresh in
  (exists fs, open Stable h = Some (fs, mkManifest Stable 2 (Some [(0, 2)]))) /\
  bin 7 h = Some [12] /\ file Stable 7 h = Some [12] /\
  let h2 := history same [Install Latest (Some set1); Install Stable (Some set2)] fresh in
  file Stable 7 h2 = None /\ current h2 = Some (Some (Stable, 2)) /\ bin 7 h2 = Some [12].
Proof. vm_compute. repeat split. eexists. reflexivity. Qed.
Lemma uninstalled_refuted :
  let h := history same [Install Stable (Some set1); Uninstall Stable] fresh in
  dir Stable h = None /\ current h = Some (Some (Stable, 1)) /\ bin 0 h = Some [10; 11] /\
  says same (Update (Some set1)) h = Failed.
Proof. vm_compute. repeat split. Qed.
Lemma list_refuted :
  let h0 := history same [Install Latest (Some set2)] fresh in
  let h := cut 2 0 (fst (changes same (Install Stable (Some set1)) h0)) h0 in
  (exists fs m, open Latest h = Some (fs, m)) /\ listed h = None /\ says same (Uninstall Stable) h = Failed /\
  says same (Install Stable (Some set1)) h = Done.
Proof. vm_compute. repeat split. eexists. eexists. reflexivity. Qed.
Lemma switch_refuted : says same (Switch Latest) home1 <> Failed /\ current (after same (Switch Latest) home1) = Some (Some (Stable, 1)).
Proof. vm_compute. split; [discriminate | reflexivity]. Qed.
Lemma order_refuted : exists a b, channel_cmp a b = Lt /\ channel_cmp b a = Lt.
Proof. exists (Tag 1), (Other 1). split; reflexivity. Qed.
Lemma twice_refuted : exists l h, wf h /\ h_settings h <> Broken /\ (forall a, In a l -> fetched same a <> None) /\
  says same (Install Stable (Some l)) h = Failed /\ file Stable 0 h = Some [10; 11] /\
  file Stable 0 (after same (Install Stable (Some l)) h) = None.
Proof.
  exists [one 0 2 [20]; one 0 2 [20]], home1. split; [apply wf_history, wf_fresh|]. split; [vm_compute; discriminate|].
  split; [intros a [E | [E | []]]; subst a; discriminate|]. vm_compute. repeat split.
Qed.

(** * The version of a package set *)

Lemma set_version_first : forall before a after, (forall b, In b before -> a_name b <> 0) -> a_name a = 0 ->
  set_version (before ++ a :: after) = a_version a.
Proof.
  intros before a after N E. unfold set_version. induction before as [|b l IH]; cbn [app find].
  - unfold fluvio. rewrite E. reflexivity.
  - unfold fluvio. assert (X : a_name b <> 0) by (apply N; left; reflexivity). apply Z.eqb_neq in X. rewrite X.
    apply IH. intros c Hc. apply N. now right.
Qed.

Lemma set_version_none : forall l, (forall b, In b l -> a_name b <> 0) -> set_version l = 0.
Proof.
  intros l N. unfold set_version. induction l as [|b l IH]; [reflexivity|]. cbn [find]. unfold fluvio.
  assert (X : a_name b <> 0) by (apply N; left; reflexivity). apply Z.eqb_neq in X. rewrite X.
  apply IH. intros c Hc. apply N. now right.
Qed.

Lemma set_version_is : (forall before a after, (forall b, In b before -> a_name b <> 0) -> a_name a = 0 ->
    set_version (before ++ a :: after) = a_version a) /\
  (forall l, (forall b, In b l -> a_name b <> 0) -> set_version l = 0).
Proof. split; [exact set_version_first | exact set_version_none]. Qed.
