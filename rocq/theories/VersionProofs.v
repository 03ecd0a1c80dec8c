From Verif Require Import Base ListFacts VersionModel WireSpec WireProofs VersionSpec.
From Verif Require RecordProofs.

Scheme vty_mut := Induction for vty Sort Prop
  with vfields_mut := Induction for vfields Sort Prop
  with vvars_mut := Induction for vvars Sort Prop.
Combined Scheme vty_all_ind from vty_mut, vfields_mut, vvars_mut.

(** ** Sizes and bytes *)

Definition sized {A} (c : codec A) (ok : A -> Prop) : Prop := size_exact c ok /\ emits_bytes c ok.

Lemma lawful_sized {A} (c : codec A) ok : lawful c ok -> sized c ok.
Proof. intros (_ & S & B). split; assumption. Qed.

Section Sized.
  Context {A : Type} (c : codec A) (ok : A -> Prop) (S : sized c ok).

  Lemma sized_flat l : Forall ok l -> forall s,
    fold_left (fun s a => s + c_size c a) l s = s + zlen (flat_map (c_enc c) l).
  Proof.
    induction l as [|a l IH]; intros H s; cbn [fold_left flat_map].
    - rewrite zlen_nil. lia.
    - apply Forall_cons_iff in H as [Ha Hl]. rewrite IH, zlen_app by assumption. rewrite (proj1 S) by assumption. lia.
  Qed.
  Lemma sized_flat_bytes l : Forall ok l -> is_bytes (flat_map (c_enc c) l).
  Proof.
    induction l as [|a l IH]; intros H; cbn [flat_map]; [constructor|].
    apply Forall_cons_iff in H as [Ha Hl]. apply is_bytes_app. split; [apply S; assumption|auto].
  Qed.
  Lemma sized_option : sized (option_codec c) (fun o => match o with Some a => ok a | None => True end).
  Proof.
    split.
    - intros [a|] Ha; cbn [c_enc c_size option_codec bool_codec app]; [|reflexivity].
      rewrite zlen_cons, (proj1 S) by assumption. lia.
    - intros [a|] Ha; cbn [c_enc option_codec bool_codec app]; constructor; unfold is_byte; try lia; try constructor.
      apply S. exact Ha.
  Qed.
  Lemma sized_vec : sized (vec_codec c) (Forall ok).
  Proof.
    split.
    - intros l H. cbn [c_size c_enc vec_codec]. unfold vec_size, vec_enc. rewrite sized_flat by assumption.
      rewrite zlen_app. unfold zlen at 2. rewrite be_enc_length. reflexivity.
    - intros l H. cbn [c_enc vec_codec]. unfold vec_enc. apply is_bytes_app. split; [apply be_enc_bytes|].
      apply sized_flat_bytes. assumption.
  Qed.
End Sized.

Lemma sized_pair {A B} (ca : codec A) (cb : codec B) oka okb : sized ca oka -> sized cb okb ->
  sized (pair_codec ca cb) (fun p => oka (fst p) /\ okb (snd p)).
Proof.
  intros [S By] [S' By']. split.
  - intros [a b] [Ha Hb]; cbn [c_enc c_size pair_codec fst snd] in *.
    rewrite zlen_app, S, S' by assumption. reflexivity.
  - intros [a b] [Ha Hb]; cbn [c_enc pair_codec fst snd] in *. apply is_bytes_app. auto.
Qed.

Lemma sized_map {K V} cmp (ck : codec K) (cv : codec V) okk okv : sized ck okk -> sized cv okv ->
  sized (map_codec cmp ck cv) (Forall (fun e => okk (fst e) /\ okv (snd e))).
Proof.
  intros Sk Sv. pose proof (sized_pair _ _ _ _ Sk Sv) as SP. split.
  - intros m Hm. cbn [c_size c_enc map_codec]. rewrite zlen_app. unfold zlen at 1. rewrite be_enc_length.
    pose proof (sized_flat _ _ SP m Hm 2) as Q. cbn [c_size pair_codec] in Q.
    change (Z.of_nat 2) with 2. rewrite <- Q. clear.
    generalize 2 as s. induction m as [|e m IH]; intros s; cbn [fold_left]; [reflexivity|].
    rewrite IH. f_equal. lia.
  - intros m Hm. cbn [c_enc map_codec]. apply is_bytes_app. split; [apply be_enc_bytes|].
    eapply sized_flat_bytes; [exact SP|exact Hm].
Qed.

Lemma sized_via {A B} (inj : A -> B) (prj : B -> A) c (ok : A -> Prop) (ok' : B -> Prop) :
  sized c ok -> (forall b, ok' b -> ok (prj b)) -> sized (via inj prj c) ok'.
Proof.
  intros [S By] H. split; intros b Hb; cbn [c_size c_enc via]; [apply S|apply By]; auto.
Qed.

Lemma leaf_sized l : sized (leaf_codec l) (leaf_ok l).
Proof.
  destruct l; cbn [leaf_codec].
  - eapply sized_via; [apply lawful_sized, int_lawful|]. intros []; cbn; tauto.
  - eapply sized_via; [apply lawful_sized, (bool_lawful (fun _ => True))|]. intros []; cbn; tauto.
  - eapply sized_via; [apply lawful_sized, varint_lawful|]. intros []; cbn; tauto.
  - eapply sized_via; [apply lawful_sized, string_lawful|]. intros []; cbn; tauto.
  - eapply sized_via; [apply lawful_sized, bytebuf_lawful|]. intros []; cbn; tauto.
  - eapply sized_via; [apply lawful_sized, duration_lawful|]. intros []; cbn; tauto.
  - eapply sized_via; [apply lawful_sized, RecordProofs.record_data_lawful|]. intros []; cbn; tauto.
Qed.

Lemma ukey_as k x : ukey_ok k x -> key_ok k (as_key k x) /\ of_key k (as_key k x) = x.
Proof. destruct k, x; cbn; try tauto; intros H; split; auto. Qed.

Section AtVersion.
Context (v : Z).

Lemma all_sized :
  (forall t, sized (vcodec v t) (fits t))
  /\ (forall fs, sized (fcodec v fs) (ffits fs))
  /\ (forall vs tag y, nfits vs tag y ->
        exists c, ncodec v vs tag = Some c /\ c_size c y = zlen (c_enc c y) /\ is_bytes (c_enc c y)).
Proof.
  apply vty_all_ind.
  - intros l. apply leaf_sized.
  - intros t IH. cbn [vcodec]. eapply sized_via; [apply sized_option; exact IH|].
    intros []; cbn [fits as_o]; tauto.
  - intros t IH. cbn [vcodec]. eapply sized_via; [apply sized_vec; exact IH|].
    intros []; cbn [fits as_l]; tauto.
  - intros k t IH. cbn [vcodec]. eapply sized_via.
    + eapply sized_map; [apply lawful_sized, key_lawful|exact IH].
    + intros []; cbn [fits as_m]; try tauto. intros (H & _). rewrite Forall_map. eapply Forall_impl; [|exact H].
      intros [a b] [Ha Hb]. cbn [fst snd] in *. split; [apply ukey_as; assumption|assumption].
  - intros fs IH. cbn [vcodec]. eapply sized_via; [exact IH|]. intros []; cbn [fits as_t]; tauto.
  - intros k vs IH. cbn [vcodec]. destruct (lawful_sized _ _ (int_lawful k)) as [S By]. split.
    + intros [] H; cbn [fits] in H; try contradiction. destruct H as [Hk Hv]. cbn [c_size c_enc as_tag as_pay].
      destruct (IH _ _ Hv) as (c & -> & Hs & _). rewrite zlen_app, S by assumption. rewrite Hs. reflexivity.
    + intros [] H; cbn [fits] in H; try contradiction. destruct H as [Hk Hv]. cbn [c_enc as_tag as_pay].
      destruct (IH _ _ Hv) as (c & -> & _ & Hb). apply is_bytes_app. split; [apply By; assumption|assumption].
  - split; intros xs _; cbn [fcodec c_size c_enc]; [reflexivity|constructor].
  - intros min max d t IHt rest IHr. split.
    + intros [|x xs] H; cbn [ffits] in H; [contradiction|]. destruct H as [Hx Hxs].
      cbn [fcodec c_size c_enc hd tl]. rewrite zlen_app, (proj1 IHr) by assumption.
      destruct (in_range min max v); [rewrite (proj1 IHt) by assumption; reflexivity|reflexivity].
    + intros [|x xs] H; cbn [ffits] in H; [contradiction|]. destruct H as [Hx Hxs].
      cbn [fcodec c_enc hd tl]. apply is_bytes_app. split; [|apply IHr; assumption].
      destruct (in_range min max v); [apply IHt; assumption|constructor].
  - intros tag y H. cbn [nfits] in H. contradiction.
  - intros tg since t IHt rest IHr tag y H. cbn [nfits ncodec] in *.
    destruct (tg =? tag); [|apply IHr; assumption].
    exists (vcodec v t). split; [reflexivity|]. split; [apply IHt; assumption|apply IHt; assumption].
Qed.
End AtVersion.

(** ** Between two releases *)

Lemma via_enc {A B} (inj : A -> B) prj (c : codec A) b : c_enc (via inj prj c) b = c_enc c (prj b).
Proof. reflexivity. Qed.
Lemma via_dec {A B} (inj : A -> B) prj (c : codec A) bs :
  c_dec (via inj prj c) bs = let* (a, r) := c_dec c bs in Ok (inj a, r).
Proof. reflexivity. Qed.

(** A message that is read as [f], unless [g] says no: then it is refused. *)
Definition answers {A} (c c' : codec A) (ok : A -> Prop) (g : A -> bool) (f : A -> A) : Prop :=
  forall a rest, ok a -> c_dec c' (c_enc c a ++ rest) = if g a then Ok (f a, rest) else Err InvalidData.

Section Combinators.
  Context {A : Type} (c c' : codec A) (ok : A -> Prop) (g : A -> bool) (f : A -> A).
  Hypothesis (R : answers c c' ok g f).

  Lemma answers_option :
    answers (option_codec c) (option_codec c')
      (fun o => match o with Some a => ok a | None => True end)
      (fun o => match o with Some a => g a | None => true end) (option_map f).
  Proof.
    intros [a|] rest Ha; cbn [c_enc c_dec option_codec bool_codec app option_map].
    - change (1 =? 0) with false. change (1 =? 1) with true. cbv iota. cbn [bind].
      rewrite R by assumption. destruct (g a); reflexivity.
    - reflexivity.
  Qed.

  Lemma answers_times l rest : Forall ok l ->
    dec_times (c_dec c') (length l) (flat_map (c_enc c) l ++ rest)
    = if forallb g l then Ok (map f l, rest) else Err InvalidData.
  Proof.
    induction l as [|a l IH]; intros H; [reflexivity|].
    apply Forall_cons_iff in H as [Ha Hl].
    cbn [length dec_times flat_map forallb map]. rewrite <- app_assoc, R by assumption.
    destruct (g a); cbn [bind andb]; [|reflexivity].
    rewrite IH by assumption. destruct (forallb g l); reflexivity.
  Qed.

  Lemma answers_vec :
    answers (vec_codec c) (vec_codec c') (fun l => Forall ok l /\ zlen l < 2 ^ 31) (forallb g) (map f).
  Proof.
    intros l rest [Hl Hz]. cbn [c_dec c_enc vec_codec]. unfold vec_dec, vec_enc.
    pose proof (zlen_nonneg l) as H0.
    rewrite wrap_u_id by (unfold in_u; change (2^32) with 4294967296; change (2^31) with 2147483648 in Hz; lia).
    rewrite <- app_assoc. destruct (s_lawful 4 ltac:(lia)) as (RI & _).
    change (be_enc 4 (zlen l)) with (c_enc i32_codec (zlen l)). unfold i32_codec. rewrite RI.
    2: { unfold in_s. change (2 ^ (8 * Z.of_nat 4 - 1)) with (2 ^ 31). lia. }
    cbn [bind]. destruct (zlen l <? 1) eqn:Q.
    - destruct l; [reflexivity|]. rewrite zlen_cons in Q. pose proof (zlen_nonneg l). lia.
    - unfold zlen. rewrite Nat2Z.id. apply answers_times. assumption.
  Qed.

  Lemma answers_via {B} (inj : A -> B) (prj : B -> A) (ok' : B -> Prop) (g' : B -> bool) (f' : B -> B) :
    (forall b, ok' b -> ok (prj b)) -> (forall b, ok' b -> g' b = g (prj b)) ->
    (forall b, ok' b -> f' b = inj (f (prj b))) ->
    answers (via inj prj c) (via inj prj c') ok' g' f'.
  Proof.
    intros H1 H2 H3 b rest Hb. rewrite via_enc, via_dec, R by auto. rewrite H2, H3 by assumption.
    destruct (g (prj b)); reflexivity.
  Qed.
End Combinators.

Lemma answers_map {K V} cmp (ck : codec K) (c c' : codec V) okk okv g (f : V -> V) :
  (forall a b, cmp a b = Lt -> cmp b a = Gt) -> roundtrips ck okk -> answers c c' okv g f ->
  answers (map_codec cmp ck c) (map_codec cmp ck c')
    (fun m => Forall (fun e => okk (fst e) /\ okv (snd e)) m /\ ascending cmp (map fst m) /\ zlen m < 2 ^ 16)
    (forallb (fun e => g (snd e))) (map (fun e => (fst e, f (snd e)))).
Proof.
  intros anti Rk Rv m rest (Hm & Hasc & Hlen). cbn [c_dec c_enc map_codec]. pose proof (zlen_nonneg m) as H0.
  assert (answers (pair_codec ck c) (pair_codec ck c') (fun e => okk (fst e) /\ okv (snd e))
            (fun e => g (snd e)) (fun e => (fst e, f (snd e)))) as RP.
  { intros [a b] rest' [Ha Hb]. cbn [c_enc c_dec pair_codec fst snd] in *.
    rewrite <- app_assoc, Rk by assumption. cbn [bind]. rewrite Rv by assumption. destruct (g b); reflexivity. }
  rewrite wrap_u_id by (unfold in_u; lia). rewrite <- app_assoc.
  change (be_enc 2 (zlen m)) with (c_enc u16_codec (zlen m)).
  destruct (u_lawful 2) as (R & _). unfold u16_codec. rewrite R.
  2: { unfold in_u. change (8 * Z.of_nat 2) with 16. lia. }
  cbn [bind]. unfold zlen. rewrite Nat2Z.id. rewrite (answers_times _ _ _ _ _ RP) by assumption.
  destruct (forallb _ m); [|reflexivity]. cbn [bind].
  rewrite map_rebuild; [reflexivity|assumption|]. cbn [app]. rewrite map_map. cbn [fst]. exact Hasc.
Qed.

Lemma leaf_answers l : answers (leaf_codec l) (leaf_codec l) (leaf_ok l) (fun _ => true) (fun x => x).
Proof.
  assert (forall A (c : codec A) ok, lawful c ok -> answers c c ok (fun _ => true) (fun x => x)) as X.
  { intros A c ok (R & _) a rest Ha. rewrite R by assumption. reflexivity. }
  destruct l; cbn [leaf_codec].
  - eapply answers_via; [apply X, int_lawful| | |]; intros []; cbn; tauto.
  - eapply answers_via; [apply X, (bool_lawful (fun _ => True))| | |]; intros []; cbn; tauto.
  - eapply answers_via; [apply X, varint_lawful| | |]; intros []; cbn; tauto.
  - eapply answers_via; [apply X, string_lawful| | |]; intros []; cbn; tauto.
  - eapply answers_via; [apply X, bytebuf_lawful| | |]; intros []; cbn; tauto.
  - eapply answers_via; [apply X, duration_lawful| | |]; intros []; cbn; tauto.
  - eapply answers_via; [apply X, RecordProofs.record_data_lawful| | |]; intros []; cbn; tauto.
Qed.

Lemma nfits_has_tag r vs tag y : nfits (ncut r vs) tag y -> has_tag vs tag = true.
Proof.
  induction vs as [|tg since t rest IH]; cbn [ncut nfits has_tag]; [tauto|].
  destruct (knows r since); cbn [nfits]; destruct (tg =? tag); cbn [orb]; auto.
Qed.

Lemma in_range_min min max v : in_range min max v = true -> min <= v.
Proof. unfold in_range. destruct max; [rewrite Bool.andb_true_iff|]; lia. Qed.
Lemma speaks_knows r min max v : speaks r v -> in_range min max v = true -> knows r min = true.
Proof.
  intros S H. apply in_range_min in H. destruct r as [n|]; cbn in *; [|reflexivity]. apply Z.leb_le. lia.
Qed.

Section Releases.
Context (rs rr : option Z) (v : Z) (Ss : speaks rs v) (Sr : speaks rr v).

Lemma all_answer :
  (forall t, well_formed t ->
     answers (vcodec v (cut rs t)) (vcodec v (cut rr t)) (fits (cut rs t))
       (variants_known rs rr v t) (received rs rr v t))
  /\ (forall fs, fwell_formed fs ->
     answers (fcodec v (fcut rs fs)) (fcodec v (fcut rr fs)) (ffits (fcut rs fs))
       (fvariants_known rs rr v fs) (freceived rs rr v fs))
  /\ (forall vs, nwell_formed vs -> forall tag y, nfits (ncut rs vs) tag y ->
     exists c, ncodec v (ncut rs vs) tag = Some c /\ forall rest,
       match ncodec v (ncut rr vs) tag with
       | Some c' => c_dec c' (c_enc c y ++ rest)
       | None => Err InvalidData
       end = if nvariants_known rs rr v vs tag y then Ok (nreceived rs rr v vs tag y, rest) else Err InvalidData).
Proof.
  apply vty_all_ind.
  - intros l _. apply leaf_answers.
  - intros t IH W. cbn [cut vcodec]. eapply answers_via; [apply answers_option; exact (IH W)| | |];
      intros []; cbn [fits as_o variants_known received]; tauto.
  - intros t IH W. cbn [cut vcodec]. eapply answers_via; [apply answers_vec; exact (IH W)| | |];
      intros []; cbn [fits as_l variants_known received]; tauto.
  - intros k t IH W. cbn [cut vcodec]. eapply answers_via.
    + eapply answers_map; [apply kcompare_anti|apply key_lawful|exact (IH W)].
    + intros []; cbn [fits as_m]; try tauto. intros (H & Ha & Hl). split; [|split].
      * rewrite Forall_map. eapply Forall_impl; [|exact H].
        intros [a b] [Ka Kb]. cbn [fst snd] in *. split; [apply ukey_as; assumption|assumption].
      * rewrite map_map. cbn [fst]. exact Ha.
      * unfold zlen in *. rewrite map_length. exact Hl.
    + intros []; cbn [fits as_m]; try tauto. intros _. cbn [variants_known as_m].
      induction m as [|e m IHm]; cbn [map forallb fst snd]; [reflexivity|]. rewrite IHm. reflexivity.
    + intros []; cbn [fits as_m]; try tauto. intros (H & _). cbn [received as_m]. f_equal.
      induction H as [|e m [He _] _ IHm]; cbn [map fst snd]; [reflexivity|]. rewrite IHm.
      rewrite (proj2 (ukey_as _ _ He)). reflexivity.
  - intros fs IH W. cbn [cut vcodec]. eapply answers_via; [exact (IH W)| | |];
      intros []; cbn [fits as_t variants_known received]; tauto.
  - intros k vs IH W x rest H. cbn [cut vcodec c_enc c_dec]. destruct x; cbn [cut fits] in H; try contradiction.
    destruct H as [Hk Hv]. cbn [as_tag as_pay variants_known received].
    destruct (IH W _ _ Hv) as (c & Ec & Hc). rewrite Ec, <- app_assoc.
    destruct (int_lawful k) as (R & _). rewrite R by assumption. cbn [bind].
    specialize (Hc rest). destruct (ncodec v (ncut rr vs) tag) as [c'|] eqn:Q.
    + rewrite Hc. destruct (nvariants_known _ _ _ _ _ _); reflexivity.
    + destruct (nvariants_known _ _ _ _ _ _); congruence.
  - intros _ xs rest _. reflexivity.
  - intros min max d t IHt rest IHr (_ & Wt & Wr) xs tail H. cbn [fcut fvariants_known freceived] in *.
    destruct (in_range min max v) eqn:Q.
    + rewrite (speaks_knows _ _ _ _ Ss Q) in *. rewrite (speaks_knows _ _ _ _ Sr Q).
      destruct xs as [|x xs]; cbn [ffits] in H; [contradiction|]. destruct H as [Hx Hxs].
      cbn [fcodec c_enc c_dec hd tl]. rewrite Q, <- app_assoc, (IHt Wt) by assumption.
      destruct (variants_known rs rr v t x); cbn [bind andb]; [|reflexivity].
      rewrite (IHr Wr) by assumption. destruct (fvariants_known rs rr v rest xs); reflexivity.
    + assert (c_enc (fcodec v (if knows rs min then FCons min max (trim rs t d) (cut rs t) (fcut rs rest) else fcut rs rest)) xs
              = c_enc (fcodec v (fcut rs rest)) (if knows rs min then tl xs else xs)
              /\ ffits (fcut rs rest) (if knows rs min then tl xs else xs)) as [E F].
      { destruct (knows rs min); [|split; [reflexivity|assumption]].
        destruct xs as [|x xs]; cbn [ffits] in H; [contradiction|]. destruct H as [Hx Hxs].
        cbn [fcodec c_enc tl]. rewrite Q. split; [reflexivity|assumption]. }
      rewrite E. cbn [andb]. specialize (IHr Wr _ tail F). destruct (knows rr min); cbn [app].
      * cbn [fcodec c_dec]. rewrite Q. cbn [bind]. rewrite IHr.
        destruct (fvariants_known _ _ _ _ _); reflexivity.
      * rewrite IHr. destruct (fvariants_known _ _ _ _ _); reflexivity.
  - intros _ tag y H. cbn [ncut nfits] in H. contradiction.
  - intros tg since t IHt rest IHr (Hd & Wt & Wr) tag y H. cbn [ncut nvariants_known nreceived] in *.
    destruct (tg =? tag) eqn:Q.
    + apply Z.eqb_eq in Q. subst tg. destruct (knows rs since) eqn:Ks.
      * cbn [nfits ncodec] in *. rewrite Z.eqb_refl in *. exists (vcodec v (cut rs t)). split; [reflexivity|].
        intros tail. destruct (knows rr since) eqn:Kr; cbn [andb].
        -- cbn [ncodec]. rewrite Z.eqb_refl. apply IHt; assumption.
        -- assert (ncodec v (ncut rr rest) tag = None) as ->; [|reflexivity].
           clear -Hd. induction rest as [|tg' s' t' rest IH]; cbn [ncut ncodec has_tag] in *; [reflexivity|].
           apply Bool.orb_false_iff in Hd as [D1 D2].
           destruct (knows rr s'); cbn [ncodec]; [rewrite D1|]; auto.
      * apply nfits_has_tag in H. congruence.
    + assert (nfits (ncut rs rest) tag y) as H'.
      { destruct (knows rs since); [|assumption]. cbn [nfits] in H. rewrite Q in H. exact H. }
      destruct (IHr Wr _ _ H') as (c & Ec & Hc). exists c. split.
      * destruct (knows rs since); [|assumption]. cbn [ncodec]. rewrite Q. exact Ec.
      * intros tail. rewrite <- Hc. destruct (knows rr since); [|reflexivity]. cbn [ncodec]. rewrite Q. reflexivity.
Qed.
End Releases.

(** ** One release *)

Lemma map_ext_in' {A B} (f g : A -> B) l : (forall a, In a l -> f a = g a) -> map f l = map g l.
Proof. apply map_ext_in. Qed.

Lemma all_trim_current :
  (forall t x, fits t x -> trim None t x = x)
  /\ (forall fs xs, ffits fs xs -> ftrim None fs xs = xs)
  /\ (forall vs tag y, nfits vs tag y -> ntrim None vs tag y = y).
Proof.
  apply vty_all_ind.
  - reflexivity.
  - intros t IH [] H; cbn [fits] in H; try contradiction. cbn [trim as_o]. destruct o as [a|]; [|reflexivity].
    cbn [option_map]. rewrite IH by assumption. reflexivity.
  - intros t IH [] H; cbn [fits] in H; try contradiction. destruct H as [H _]. cbn [trim as_l]. f_equal.
    induction H as [|a l Ha _ IHl]; cbn [map]; [reflexivity|]. rewrite IHl, IH by assumption. reflexivity.
  - intros k t IH [] H; cbn [fits] in H; try contradiction. destruct H as [H _]. cbn [trim as_m]. f_equal.
    induction H as [|[a b] l [_ Hb] _ IHl]; cbn [map fst snd] in *; [reflexivity|].
    rewrite IHl, IH by assumption. reflexivity.
  - intros fs IH [] H; cbn [fits] in H; try contradiction. cbn [trim as_t]. rewrite IH by assumption. reflexivity.
  - intros k vs IH [] H; cbn [fits] in H; try contradiction. cbn [trim as_tag as_pay].
    rewrite IH by tauto. reflexivity.
  - intros [|] H; cbn in H; [reflexivity|contradiction].
  - intros min max d t IHt rest IHr [|x xs] H; cbn [ffits] in H; [contradiction|]. destruct H as [Hx Hxs].
    cbn [ftrim knows hd tl app]. rewrite IHt, IHr by assumption. reflexivity.
  - intros tag y H. cbn in H. contradiction.
  - intros tg since t IHt rest IHr tag y H. cbn [nfits ntrim] in *. destruct (tg =? tag); auto.
Qed.

Lemma all_cut_current :
  (forall t, well_formed t -> cut None t = t)
  /\ (forall fs, fwell_formed fs -> fcut None fs = fs)
  /\ (forall vs, nwell_formed vs -> ncut None vs = vs).
Proof.
  apply vty_all_ind; cbn [cut fcut ncut well_formed fwell_formed nwell_formed knows].
  - reflexivity.
  - intros t IH W. rewrite IH by assumption. reflexivity.
  - intros t IH W. rewrite IH by assumption. reflexivity.
  - intros k t IH W. rewrite IH by assumption. reflexivity.
  - intros fs IH W. rewrite IH by assumption. reflexivity.
  - intros k vs IH W. rewrite IH by assumption. reflexivity.
  - reflexivity.
  - intros min max d t IHt rest IHr (Wd & Wt & Wr). rewrite IHt, IHr by assumption.
    rewrite (proj1 all_trim_current) by assumption. reflexivity.
  - reflexivity.
  - intros tag since t IHt rest IHr (_ & Wt & Wr). rewrite IHt, IHr by assumption. reflexivity.
Qed.

Lemma all_known_by_current rs v :
  (forall t x, variants_known rs None v t x = true)
  /\ (forall fs xs, fvariants_known rs None v fs xs = true)
  /\ (forall vs tag y, nvariants_known rs None v vs tag y = true).
Proof.
  apply vty_all_ind; cbn [variants_known fvariants_known nvariants_known knows andb].
  - reflexivity.
  - intros t IH x. destruct (as_o x); auto.
  - intros t IH x. apply forallb_forall. auto.
  - intros k t IH x. apply forallb_forall. auto.
  - auto.
  - auto.
  - reflexivity.
  - intros min max d t IHt rest IHr xs. rewrite IHr, Bool.andb_true_r. destruct (in_range min max v); auto.
  - reflexivity.
  - intros tg since t IHt rest IHr tag y. destruct (tg =? tag); auto.
Qed.

Lemma all_received_current v :
  (forall t x, well_formed t -> received None None v t x = seen v t x)
  /\ (forall fs xs, fwell_formed fs -> freceived None None v fs xs = fseen v fs xs)
  /\ (forall vs tag y, nwell_formed vs -> nreceived None None v vs tag y = nseen v vs tag y).
Proof.
  apply vty_all_ind; cbn [received freceived nreceived seen fseen nseen well_formed fwell_formed nwell_formed knows app].
  - reflexivity.
  - intros t IH x W. destruct (as_o x); cbn [option_map]; [rewrite IH by assumption|]; reflexivity.
  - intros t IH x W. f_equal. apply map_ext. auto.
  - intros k t IH x W. f_equal. apply map_ext. intros e. rewrite IH by assumption. reflexivity.
  - intros fs IH x W. rewrite IH by assumption. reflexivity.
  - intros k vs IH x W. rewrite IH by assumption. reflexivity.
  - reflexivity.
  - intros min max d t IHt rest IHr xs (Wd & Wt & Wr). rewrite IHr by assumption.
    rewrite (proj1 all_trim_current) by assumption. rewrite IHt by assumption. reflexivity.
  - reflexivity.
  - intros tg since t IHt rest IHr tag y (_ & Wt & Wr). destruct (tg =? tag); auto.
Qed.

Lemma all_seen_identity v :
  (forall t, carries_all v t = true -> forall x, fits t x -> seen v t x = x)
  /\ (forall fs, fcarries_all v fs = true -> forall xs, ffits fs xs -> fseen v fs xs = xs)
  /\ (forall vs, ncarries_all v vs = true -> forall tag y, nfits vs tag y -> nseen v vs tag y = y).
Proof.
  apply vty_all_ind; cbn [carries_all fcarries_all ncarries_all].
  - reflexivity.
  - intros t IH C [] H; cbn [fits] in H; try contradiction. cbn [seen as_o]. destruct o as [a|]; [|reflexivity].
    cbn [option_map]. rewrite IH by assumption. reflexivity.
  - intros t IH C [] H; cbn [fits] in H; try contradiction. destruct H as [H _]. cbn [seen as_l]. f_equal.
    induction H as [|a l Ha _ IHl]; cbn [map]; [reflexivity|]. rewrite IHl, IH by assumption. reflexivity.
  - intros k t IH C [] H; cbn [fits] in H; try contradiction. destruct H as [H _]. cbn [seen as_m]. f_equal.
    induction H as [|[a b] l [_ Hb] _ IHl]; cbn [map fst snd] in *; [reflexivity|].
    rewrite IHl, IH by assumption. reflexivity.
  - intros fs IH C [] H; cbn [fits] in H; try contradiction. cbn [seen as_t]. rewrite IH by assumption. reflexivity.
  - intros k vs IH C [] H; cbn [fits] in H; try contradiction. cbn [seen as_tag as_pay].
    rewrite IH by tauto. reflexivity.
  - intros _ [|] H; cbn in H; [reflexivity|contradiction].
  - intros min max d t IHt rest IHr C [|x xs] H; cbn [ffits] in H; [contradiction|]. destruct H as [Hx Hxs].
    apply Bool.andb_true_iff in C as [C Cr]. apply Bool.andb_true_iff in C as [Ci Ct].
    cbn [fseen hd tl]. rewrite Ci, IHt, IHr by assumption. reflexivity.
  - intros _ tag y H. cbn in H. contradiction.
  - intros tg since t IHt rest IHr C tag y H. apply Bool.andb_true_iff in C as [Ct Cr].
    cbn [nfits nseen] in *. destruct (tg =? tag); auto.
Qed.

Lemma all_seen_fits v :
  (forall t, well_formed t -> forall x, fits t x -> fits t (seen v t x))
  /\ (forall fs, fwell_formed fs -> forall xs, ffits fs xs -> ffits fs (fseen v fs xs))
  /\ (forall vs, nwell_formed vs -> forall tag y, nfits vs tag y -> nfits vs tag (nseen v vs tag y)).
Proof.
  apply vty_all_ind; cbn [well_formed fwell_formed nwell_formed].
  - intros l _ x H. exact H.
  - intros t IH C [] H; cbn [fits] in H; try contradiction. cbn [seen as_o fits]. destruct o as [a|]; [|exact Logic.I].
    cbn [option_map]. apply IH; assumption.
  - intros t IH C [] H; cbn [fits] in H; try contradiction. destruct H as [H Hl]. cbn [seen as_l fits]. split.
    + rewrite Forall_map. eapply Forall_impl; [|exact H]. intros a Ha. apply IH; assumption.
    + unfold zlen in *. rewrite map_length. exact Hl.
  - intros k t IH C [] H; cbn [fits] in H; try contradiction. destruct H as (H & Ha & Hl). cbn [seen as_m fits].
    split; [|split].
    + rewrite Forall_map. eapply Forall_impl; [|exact H]. intros [a b] [Ka Kb]. cbn [fst snd] in *. split; [assumption|].
      apply IH; assumption.
    + rewrite map_map. cbn [fst]. exact Ha.
    + unfold zlen in *. rewrite map_length. exact Hl.
  - intros fs IH C [] H; cbn [fits] in H; try contradiction. cbn [seen as_t fits]. apply IH; assumption.
  - intros k vs IH C [] H; cbn [fits] in H; try contradiction. cbn [seen as_tag as_pay fits].
    destruct H as [Hk Hv]. split; [assumption|apply IH; assumption].
  - intros _ [|] H; cbn in H |- *; [exact Logic.I|contradiction].
  - intros min max d t IHt rest IHr (Wd & Wt & Wr) [|x xs] H; cbn [ffits] in H; [contradiction|]. destruct H as [Hx Hxs].
    cbn [fseen hd tl ffits]. split; [destruct (in_range min max v); [apply IHt|]; assumption|apply IHr; assumption].
  - intros _ tag y H. cbn in H. contradiction.
  - intros tg since t IHt rest IHr (_ & Wt & Wr) tag y H.
    cbn [nfits nseen] in *. destruct (tg =? tag); [apply IHt|apply IHr]; assumption.
Qed.

(** ** Another version than the one written *)

Lemma all_same_layout v w :
  (forall t x, same_layout v w t x -> c_enc (vcodec w t) x = c_enc (vcodec v t) x)
  /\ (forall fs xs, fsame_layout v w fs xs -> c_enc (fcodec w fs) xs = c_enc (fcodec v fs) xs)
  /\ (forall vs tag y, nsame_layout v w vs tag y ->
        match ncodec w vs tag, ncodec v vs tag with
        | Some c, Some c' => c_enc c y = c_enc c' y
        | None, None => True
        | _, _ => False
        end).
Proof.
  apply vty_all_ind; cbn [same_layout fsame_layout nsame_layout].
  - reflexivity.
  - intros t IH x H. cbn [vcodec]. rewrite !via_enc. destruct (as_o x) as [a|]; cbn [c_enc option_codec]; [|reflexivity].
    rewrite IH by assumption. reflexivity.
  - intros t IH x H. cbn [vcodec]. rewrite !via_enc. cbn [c_enc vec_codec]. unfold vec_enc. f_equal.
    induction H as [|a l Ha _ IHl]; cbn [flat_map]; [reflexivity|]. rewrite IHl, IH by assumption. reflexivity.
  - intros k t IH x H. cbn [vcodec]. rewrite !via_enc. cbn [c_enc map_codec]. f_equal.
    induction H as [|[a b] l Hb _ IHl]; cbn [map flat_map]; [reflexivity|]. rewrite IHl.
    cbn [c_enc pair_codec fst snd] in *. rewrite IH by assumption. reflexivity.
  - intros fs IH x H. cbn [vcodec]. rewrite !via_enc. auto.
  - intros k vs IH x H. cbn [vcodec c_enc]. specialize (IH _ _ H). f_equal.
    destruct (ncodec w vs (as_tag x)), (ncodec v vs (as_tag x)); tauto.
  - reflexivity.
  - intros min max d t IHt rest IHr xs (E & Ht & Hr). cbn [fcodec c_enc]. rewrite <- E, IHr by assumption.
    destruct (in_range min max v); [rewrite IHt by auto|]; reflexivity.
  - intros tag y _. cbn [ncodec]. exact Logic.I.
  - intros tg since t IHt rest IHr tag y H. cbn [ncodec]. destruct (tg =? tag); [auto|apply IHr; exact H].
Qed.

Lemma none_sent_enc v fs xs : none_sent v fs -> c_enc (fcodec v fs) xs = [].
Proof.
  revert xs. induction fs as [|min max d t rest IH]; intros xs H; [reflexivity|].
  cbn [none_sent fcodec c_enc] in *. destruct H as [-> H]. cbn [app]. auto.
Qed.

Lemma appends_enc v w fs xs : appends v w fs xs ->
  exists tail, c_enc (fcodec w fs) xs = c_enc (fcodec v fs) xs ++ tail.
Proof.
  revert xs. induction fs as [|min max d t rest IH]; intros xs H; cbn [appends] in H.
  - exists []. reflexivity.
  - destruct H as [H|(E & Ht & Hr)].
    + exists (c_enc (fcodec w (FCons min max d t rest)) xs). rewrite (none_sent_enc v (FCons min max d t rest) xs H). reflexivity.
    + destruct (IH _ Hr) as [tail Et]. exists tail. cbn [fcodec c_enc]. rewrite <- E, Et.
      destruct (in_range min max v); [|reflexivity].
      rewrite (proj1 (all_same_layout v w)) by auto. rewrite app_assoc. reflexivity.
Qed.
