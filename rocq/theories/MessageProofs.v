(** Lemmas about the admin requests of MessageModel. *)
From Verif Require Import Base WireModel WireSpec WireProofs ListFacts VersionModel VersionSpec VersionProofs
  MessageModel MessageSpec VersionClaims.

Lemma string_back s rest : str_ok s -> c_dec string_codec (c_enc string_codec s ++ rest) = Ok (s, rest).
Proof. exact (fun H => proj1 string_lawful s rest H). Qed.
Lemma u32_back n rest : int_ok U32 n -> c_dec (int_codec U32) (c_enc (int_codec U32) n ++ rest) = Ok (n, rest).
Proof. exact (fun H => proj1 (int_lawful U32) n rest H). Qed.
Lemma u8_back n rest : int_ok U8 n -> c_dec (int_codec U8) (c_enc (int_codec U8) n ++ rest) = Ok (n, rest).
Proof. exact (fun H => proj1 (int_lawful U8) n rest H). Qed.

Lemma label_ok o : str_ok (label o).
Proof. apply strb_ok. destruct o; reflexivity. Qed.
Lemma labels_differ a b : bytes_eqb (label a) (label b) = true -> a = b.
Proof. destruct a, b; intro H; try discriminate; reflexivity. Qed.
Lemma bytes_eqb_refl s : bytes_eqb s s = true.
Proof. induction s as [|b s IH]; cbn; [reflexivity|]. rewrite Z.eqb_refl, IH. reflexivity. Qed.

Lemma typed_back v ty buf rest : str_ok ty -> zlen buf < 2 ^ 32 ->
  typed_dec v (c_enc string_codec ty ++ c_enc (int_codec U32) (wrap_u 32 (zlen buf)) ++ buf ++ rest)
  = Ok ({| tb_version := v; tb_ty := ty; tb_buf := buf |}, rest).
Proof.
  intros Ht Hb. pose proof (zlen_nonneg buf) as Hn.
  assert (Hw : wrap_u 32 (zlen buf) = zlen buf) by (unfold wrap_u; apply Z.mod_small; lia).
  unfold typed_dec. rewrite (string_back ty _ Ht). cbn [bind]. rewrite Hw, u32_back by (unfold int_ok, in_u; lia).
  cbn [bind]. rewrite zlen_app. pose proof (zlen_nonneg rest) as Hr.
  replace (zlen buf + zlen rest <? zlen buf) with false by (symmetry; apply Z.ltb_ge; lia).
  rewrite ztake_app_exact, zdrop_app_exact by reflexivity. reflexivity.
Qed.

(** ** Specs *)

Lemma spec_well_formed o : well_formed (spec_ty o).
Proof. apply wfb_well_formed. destruct o; vm_compute; reflexivity. Qed.
Lemma v1_well_formed : well_formed smartmodule_v1.
Proof. apply wfb_well_formed. vm_compute. reflexivity. Qed.
Lemma common_well_formed : well_formed create_common.
Proof. apply wfb_well_formed. vm_compute. reflexivity. Qed.

Lemma wasm_of_fits x : fits smartmodule_spec x -> fits sm_wasm (nth 2 (as_t x) default_wasm).
Proof.
  destruct x as [| | | | | | |l|]; try contradiction. intro F. cbn [as_t].
  destruct l as [|a [|b [|c l]]]; cbn in F |- *; tauto.
Qed.

Lemma spec_arrives v o : 0 <= v -> arrives_as (spec_codec v o) (spec_codec v o) (fits (spec_ty o)) (spec_seen v o).
Proof.
  intros Hv. destruct o; try exact (arrives_current v _ (spec_well_formed _)).
  unfold spec_codec, smartmodule_codec, spec_seen. destruct (v <? 10) eqn:E;
    [|exact (arrives_current v _ (spec_well_formed OSmartModule))].
  intros x rest F. pose proof (wasm_of_fits x F) as Fw. set (w := nth 2 (as_t x) default_wasm) in *.
  assert (F1 : fits smartmodule_v1 (UT [tag0; tag0; none; w; none])).
  { unfold smartmodule_v1, struct. cbn [fields fits ffits req]. cbn [fits ffits].
    split; [apply fitsb_fits; reflexivity|]. split; [apply fitsb_fits; reflexivity|].
    split; [exact Logic.I|]. split; [exact Fw|]. split; exact Logic.I. }
  rewrite via_enc, via_dec. fold w. rewrite (arrives_current v _ v1_well_formed _ rest F1). cbn [bind].
  replace (seen v smartmodule_v1 (UT [tag0; tag0; none; w; none])) with (UT [tag0; tag0; none; w; none]).
  - reflexivity.
  - symmetry. apply (proj1 (all_seen_identity v) smartmodule_v1); [|exact F1].
    unfold smartmodule_v1, struct, plain, enum, sm_wasm, t_unit, req. cbn.
    replace (0 <=? v) with true by (symmetry; apply Z.leb_le; lia). reflexivity.
Qed.

Lemma common_arrives v : arrives_as (vcodec v create_common) (vcodec v create_common) (fits create_common) (seen v create_common).
Proof. exact (arrives_current v _ common_well_formed). Qed.

(** ** Create at the versions with labels *)

Lemma try_objs_one down o c : down o = Ok (Some c) -> (forall o', o' <> o -> down o' = Ok None) ->
  try_objs down all_objs = Ok (Some c).
Proof.
  intros H1 H2. unfold all_objs, try_objs.
  destruct o; repeat (rewrite H2 by discriminate; cbn [bind]); rewrite H1; reflexivity.
Qed.

Lemma downcast_other o o' b : tb_ty b = label o -> o' <> o -> create_downcast o' b = Ok None.
Proof.
  intros Hb Hn. unfold create_downcast. rewrite Hb.
  destruct (bytes_eqb (label o) (label o')) eqn:E; [|reflexivity].
  apply labels_differ in E. congruence.
Qed.

Lemma plain_back v o common spec rest : 0 <= v -> fits create_common common -> fits (spec_ty o) spec ->
  plain_dec v o (plain_enc v (o, common, spec) ++ rest) = Ok (o, seen v create_common common, spec_seen v o spec, rest).
Proof.
  intros Hv Fc Fs. unfold plain_dec, plain_enc. rewrite <- app_assoc.
  rewrite (common_arrives v common _ Fc). cbn [bind]. rewrite (spec_arrives v o Hv spec rest Fs). reflexivity.
Qed.

Lemma create_new v c rest : dyn_obj <= v -> create_ok v c ->
  create_received v (create_enc v c ++ rest) = Ok (Some (create_seen v c)).
Proof.
  intros Hv Hc. destruct c as [[o common] spec]. cbn [create_ok] in Hc. destruct Hc as [Fc [Fs Hl]].
  assert (V0 : 0 <= v) by (unfold dyn_obj in Hv; lia).
  unfold create_received, create_dec, create_enc. replace (dyn_obj <=? v) with true by (symmetry; apply Z.leb_le; lia).
  cbn [fst]. rewrite <- !app_assoc. rewrite (typed_back v _ _ rest (label_ok o) Hl). cbn [bind].
  apply (try_objs_one _ o).
  - unfold create_downcast. cbn [tb_ty tb_version tb_buf]. rewrite bytes_eqb_refl.
    replace (v <? dyn_obj) with false by (symmetry; apply Z.ltb_ge; lia).
    pose proof (plain_back v o common spec [] V0 Fc Fs) as P. rewrite app_nil_r in P. rewrite P. reflexivity.
  - intros o' Hn. apply (downcast_other o o'); [reflexivity|exact Hn].
Qed.

(** ** Create at the versions before *)

Lemma classic_back v o common spec rest : 0 <= v -> o <> OMirror -> fits create_common common -> fits (spec_ty o) spec ->
  classic_dec v (classic_enc v (o, common, spec) ++ rest)
  = Ok (o, seen v create_common common, spec_seen v o spec, rest).
Proof.
  intros Hv Ho Fc Fs. unfold classic_dec, classic_enc. rewrite <- !app_assoc.
  rewrite (common_arrives v common _ Fc). cbn [bind].
  rewrite u8_back by (apply int_okb_ok; destruct o; reflexivity). cbn [bind].
  replace (by_create_type (create_type o)) with (Some o) by (destruct o; try reflexivity; congruence).
  rewrite (spec_arrives v o Hv spec rest Fs). reflexivity.
Qed.

Lemma classic_mirror v common spec rest : fits create_common common ->
  classic_dec v (classic_enc v (OMirror, common, spec) ++ rest) = Err InvalidData.
Proof.
  intros Fc. unfold classic_dec, classic_enc. rewrite <- !app_assoc.
  rewrite (common_arrives v common _ Fc). cbn [bind].
  rewrite u8_back by (apply int_okb_ok; reflexivity). reflexivity.
Qed.

Lemma common_same v x : 7 <= v -> c_enc (vcodec common_version create_common) x = c_enc (vcodec v create_common) x.
Proof.
  intros Hv. apply (proj1 (all_same_layout v common_version)). apply (proj1 (all_steady v common_version)).
  unfold create_common, struct, req, since, common_version. cbn.
  replace (0 <=? v) with true by (symmetry; apply Z.leb_le; lia).
  replace (7 <=? v) with true by (symmetry; apply Z.leb_le; lia). reflexivity.
Qed.

Lemma appends_cons v w mn mx d t rest xs : in_range mn mx v = in_range mn mx w ->
  same_layout v w t (hd d xs) -> appends v w rest (tl xs) -> appends v w (FCons mn mx d t rest) xs.
Proof. intros A B C. right. split; [exact A|split; [intros _; exact B|exact C]]. Qed.
Lemma appends_stop v w fs xs : none_sent v fs -> appends v w fs xs.
Proof. destruct fs; intro H; left; exact H. Qed.

(** What is written at version 19 starts with what is written at [v]. *)
Lemma spec_prefix v o spec : 9 <= v < dyn_obj -> fits (spec_ty o) spec ->
  survives_conversion v (o, UT [], spec) ->
  exists tail, c_enc (spec_codec common_version o) (spec_seen v o spec) = c_enc (spec_codec v o) (spec_seen v o spec) ++ tail.
Proof.
  intros Hv F S. unfold dyn_obj in Hv. assert (E : v = 9 \/ v = 10) by lia.
  assert (Same : forall t x, steady 9 19 t = true -> steady 10 19 t = true ->
            exists tail, c_enc (vcodec common_version t) x = c_enc (vcodec v t) x ++ tail).
  { intros t x S9 S10. exists []. rewrite app_nil_r. apply (proj1 (all_same_layout v common_version)).
    apply (proj1 (all_steady v common_version)). destruct E; subst v; assumption. }
  destruct o; cbn [survives_conversion] in S.
  - (* topic *)
    destruct S as [replicas [rest [-> S]]]. cbn [spec_codec spec_seen spec_ty].
    unfold topic_spec, struct. cbn [vcodec seen as_t]. rewrite !via_enc. cbn [as_t].
    apply appends_enc. cbn [topic_fields fields].
    assert (R : same_layout v common_version replica_spec (seen v replica_spec replicas)).
    { destruct S as [S | ->].
      - unfold replica_spec, enum. cbn [variants seen same_layout as_tag as_pay]. rewrite S. cbn.
        assert (Z0 : (0 <=? v) = true) by (apply Z.leb_le; lia). rewrite Z0. cbn. tauto.
      - cbn. assert (Z0 : (0 <=? v) = true) by (apply Z.leb_le; lia). rewrite Z0. cbn. auto. }
    cbn [req since fseen hd tl].
    assert (St : forall t x, steady 9 19 t = true -> steady 10 19 t = true -> same_layout v common_version t x).
    { intros t x S9 S10. apply (proj1 (all_steady v common_version)). destruct E; subst v; assumption. }
    apply appends_cons; [destruct E; subst v; reflexivity|destruct E; subst v; exact R|].
    apply appends_cons; [destruct E; subst v; reflexivity|apply St; vm_compute; reflexivity|].
    apply appends_cons; [destruct E; subst v; reflexivity|apply St; vm_compute; reflexivity|].
    apply appends_cons; [destruct E; subst v; reflexivity|apply St; vm_compute; reflexivity|].
    apply appends_stop. destruct E; subst v; split; reflexivity || (split; reflexivity || exact Logic.I).
  - apply Same; vm_compute; reflexivity.
  - apply Same; vm_compute; reflexivity.
  - (* smartmodule *)
    destruct S as [-> [rest ->]]. exists []. rewrite app_nil_r. cbn [spec_codec spec_seen smartmodule_codec Z.ltb Z.compare Pos.compare Pos.compare_cont common_version].
    apply (proj1 (all_same_layout 10 common_version)).
    cbn. split; [reflexivity|]. split; [intros _; exact Logic.I|]. split; [reflexivity|].
    split.
    + intros _. destruct rest as [|[] rest]; cbn; try exact Logic.I. destruct o; cbn; auto.
    + split; [reflexivity|]. split; [|exact Logic.I]. intros _.
      apply (proj1 (all_steady 10 19) sm_wasm). reflexivity.
  - apply Same; vm_compute; reflexivity.
  - contradiction.
Qed.

Lemma spec_seen_fits v o spec : fits (spec_ty o) spec -> fits (spec_ty o) (spec_seen v o spec).
Proof.
  intro F. unfold spec_seen.
  assert (G : fits (spec_ty o) (seen v (spec_ty o) spec)) by (apply (proj1 (all_seen_fits v)); [apply spec_well_formed|exact F]).
  destruct o; try exact G. destruct (v <? 10); [|exact G].
  cbn. split; [exact Logic.I|]. split; [exact Logic.I|]. split; [exact (wasm_of_fits spec F)|exact Logic.I].
Qed.

Lemma spec_seen_again v o spec : fits (spec_ty o) spec -> spec_seen v o (spec_seen v o spec) = spec_seen v o spec.
Proof.
  intro F. unfold spec_seen. destruct o; try apply (proj1 (all_seen_again v)).
  destruct (v <? 10); [reflexivity|apply (proj1 (all_seen_again v))].
Qed.

Lemma create_old v c rest : min_create <= v < dyn_obj -> create_ok v c -> survives_conversion v c ->
  create_received v (create_enc v c ++ rest) = Ok (Some (create_seen v c)).
Proof.
  intros Hv Hc S. destruct c as [[o common] spec]. cbn [create_ok] in Hc. destruct Hc as [Fc [Fs _]].
  unfold min_create in Hv. assert (V0 : 0 <= v) by lia.
  assert (Ho : o <> OMirror) by (intros ->; exact S).
  unfold create_received, create_dec, create_enc. replace (dyn_obj <=? v) with false by (symmetry; apply Z.leb_gt; lia).
  rewrite (classic_back v o common spec rest V0 Ho Fc Fs). cbn [bind fst].
  apply (try_objs_one _ o).
  - unfold create_downcast. cbn [tb_ty tb_version tb_buf]. rewrite bytes_eqb_refl.
    replace (v <? dyn_obj) with true by (symmetry; apply Z.ltb_lt; lia).
    destruct (spec_prefix v o spec Hv Fs S) as [tail E].
    assert (Fc' : fits create_common (seen v create_common common))
      by (apply (proj1 (all_seen_fits v)); [apply common_well_formed|exact Fc]).
    assert (B : classic_enc common_version (o, seen v create_common common, spec_seen v o spec)
                = classic_enc v (o, seen v create_common common, spec_seen v o spec) ++ tail).
    { unfold classic_enc. rewrite E, (common_same v) by lia. rewrite <- !app_assoc. reflexivity. }
    rewrite B, (classic_back v o _ _ tail V0 Ho Fc' (spec_seen_fits v o spec Fs)). cbn [bind fst].
    rewrite Z.eqb_refl, (proj1 (all_seen_again v)), (spec_seen_again v o spec Fs). reflexivity.
  - intros o' Hn. apply (downcast_other o o'); [reflexivity|exact Hn].
Qed.

Lemma create_mirror_old v common spec rest : v < dyn_obj -> fits create_common common ->
  create_received v (create_enc v (OMirror, common, spec) ++ rest) = Err InvalidData.
Proof.
  intros Hv Fc. unfold create_received, create_dec, create_enc.
  replace (dyn_obj <=? v) with false by (symmetry; apply Z.leb_gt; lia).
  rewrite (classic_mirror v common spec rest Fc). reflexivity.
Qed.

(** ** Delete and update *)

Lemma delete_well_formed o : well_formed (delete_ty o).
Proof. apply wfb_well_formed. destruct o; vm_compute; reflexivity. Qed.
Lemma update_well_formed o : well_formed (update_ty o).
Proof. apply wfb_well_formed. destruct o; vm_compute; reflexivity. Qed.

Lemma typed_enc_new v o t x : dyn_obj <= v ->
  typed_enc v o t x = c_enc string_codec (label o) ++ c_enc (int_codec U32) (wrap_u 32 (zlen (c_enc (vcodec v t) x))) ++ c_enc (vcodec v t) x.
Proof. intro H. unfold typed_enc. replace (dyn_obj <=? v) with true by (symmetry; apply Z.leb_le; lia). reflexivity. Qed.
Lemma typed_enc_old v o t x : v < dyn_obj -> typed_enc v o t x = c_enc string_codec (label o) ++ c_enc (vcodec v t) x.
Proof. intro H. unfold typed_enc. replace (dyn_obj <=? v) with false by (symmetry; apply Z.leb_gt; lia). reflexivity. Qed.

Lemma typed_new v o t x rest : dyn_obj <= v -> well_formed t -> body_ok v t x ->
  (let* (b, _) := typed_dec v (typed_enc v o t x ++ rest) in downcast o t b) = Ok (Some (seen v t x)).
Proof.
  intros Hv W [F L]. rewrite typed_enc_new by exact Hv. rewrite <- !app_assoc.
  rewrite (typed_back v _ _ rest (label_ok o) L). cbn [bind]. unfold downcast. cbn [tb_ty tb_version tb_buf].
  rewrite bytes_eqb_refl. pose proof (arrives_current v t W x [] F) as A. rewrite app_nil_r in A. rewrite A. reflexivity.
Qed.

Lemma delete_new v o x rest : dyn_obj <= v -> body_ok v (delete_ty o) x ->
  delete_received v o (typed_enc v o (delete_ty o) x ++ rest) = Ok (Some (seen v (delete_ty o) x)).
Proof.
  intros Hv B. unfold delete_received, delete_dec. replace (dyn_obj <=? v) with true by (symmetry; apply Z.leb_le; lia).
  exact (typed_new v o _ x rest Hv (delete_well_formed o) B).
Qed.

Lemma delete_seen_old v o x : 0 <= v < dyn_obj -> fits (delete_ty o) x ->
  seen dyn_obj (delete_ty o) (seen v (delete_ty o) x) = seen v (delete_ty o) x.
Proof.
  intros Hv F. unfold dyn_obj in *. unfold delete_ty, struct. cbn [fields req since seen fseen as_t hd tl in_range].
  replace (0 <=? v) with true by (symmetry; apply Z.leb_le; lia).
  replace (13 <=? v) with false by (symmetry; apply Z.leb_gt; lia).
  cbn [Z.leb Z.compare Pos.compare Pos.compare_cont]. f_equal. f_equal.
  destruct o; try reflexivity. cbn [key_ty enum variants seen nseen as_tag as_pay].
  destruct (0 =? _); [reflexivity|]. destruct (1 =? _); reflexivity.
Qed.

Lemma delete_old v o x rest : min_delete <= v < dyn_obj -> o <> OMirror -> body_ok v (delete_ty o) x ->
  delete_received v o (typed_enc v o (delete_ty o) x ++ rest) = Ok (Some (seen v (delete_ty o) x)).
Proof.
  intros Hv Ho [F L]. unfold min_delete in Hv. unfold delete_received, delete_dec.
  replace (dyn_obj <=? v) with false by (symmetry; apply Z.leb_gt; lia).
  rewrite typed_enc_old by lia. rewrite <- app_assoc. rewrite (string_back _ _ (label_ok o)). cbn [bind].
  replace (classic_delete_obj (label o)) with (Some o) by (destruct o; try reflexivity; congruence).
  rewrite (arrives_current v _ (delete_well_formed o) x rest F). cbn [bind].
  unfold downcast. cbn [tb_ty tb_version tb_buf]. rewrite bytes_eqb_refl.
  assert (F' : fits (delete_ty o) (seen v (delete_ty o) x)) by (apply (proj1 (all_seen_fits v)); [apply delete_well_formed|exact F]).
  pose proof (arrives_current dyn_obj _ (delete_well_formed o) _ [] F') as A. rewrite app_nil_r in A.
  rewrite A. cbn [bind]. rewrite delete_seen_old by (try exact F; lia). reflexivity.
Qed.

Lemma delete_mirror_old v x rest : v < dyn_obj ->
  delete_received v OMirror (typed_enc v OMirror (delete_ty OMirror) x ++ rest) = Err InvalidData.
Proof.
  intro Hv. unfold delete_received, delete_dec. replace (dyn_obj <=? v) with false by (symmetry; apply Z.leb_gt; lia).
  rewrite typed_enc_old by lia. rewrite <- app_assoc. rewrite (string_back _ _ (label_ok OMirror)). reflexivity.
Qed.

Lemma update_new v o x rest : dyn_obj <= v -> body_ok v (update_ty o) x ->
  update_received v o (typed_enc v o (update_ty o) x ++ rest) = Ok (Some (seen v (update_ty o) x)).
Proof.
  intros Hv B. unfold update_received, update_dec.
  exact (typed_new v o _ x rest Hv (update_well_formed o) B).
Qed.

(** Without the length, the decoder takes the length of the name for the upper
    half of it. *)
Lemma no_length v l name tail : str_ok l -> str_ok name -> name <> [] -> is_bytes tail -> 1 <= zlen tail <= 40000 ->
  typed_dec v (c_enc string_codec l ++ c_enc string_codec name ++ tail) = Err Eof.
Proof.
  intros Hl [Hu Hn] Hne Ht Hz. unfold typed_dec. rewrite (string_back l _ Hl). cbn [bind].
  assert (Hb : is_bytes (name ++ tail)).
  { apply is_bytes_app. split; [exact (utf8_bytes (length name) name (le_n _) Hu)|exact Ht]. }
  assert (N1 : 1 <= zlen name) by (destruct name; [congruence|]; rewrite zlen_cons; pose proof (zlen_nonneg name); lia).
  assert (Hlen : zlen (name ++ tail) = zlen name + zlen tail) by apply zlen_app.
  cbn [c_enc string_codec]. rewrite <- app_assoc. remember (name ++ tail) as r eqn:Er. clear Er.
  replace (wrap_u 16 (zlen name)) with (zlen name) by (unfold wrap_u; symmetry; apply Z.mod_small; change (2 ^ 15) with 32768 in Hn; lia).
  pose proof (be_val_enc 2 (zlen name)) as V. rewrite Z.mod_small in V by (change (2 ^ 15) with 32768 in Hn; change (256 ^ Z.of_nat 2) with 65536; lia).
  pose proof (be_enc_length 2 (zlen name)) as L. destruct (be_enc 2 (zlen name)) as [|a1 [|a2 [|]]]; try discriminate. clear L.
  destruct r as [|b [|c r]]; [rewrite zlen_nil in Hlen; lia|rewrite zlen_cons, zlen_nil in Hlen; lia|].
  inversion_clear Hb as [|? ? Bb Hb']. inversion_clear Hb' as [|? ? Bc _]. unfold is_byte in Bb, Bc.
  rewrite !zlen_cons in Hlen. unfold be_val in V. cbn [fold_left] in V.
  cbn [c_dec int_codec u32_codec u_codec app take_bytes length Nat.ltb Nat.leb firstn skipn bind be_val fold_left].
  unfold take_bytes, be_val. cbn [length Nat.ltb Nat.leb firstn skipn bind fold_left].
  replace (zlen r <? _) with true; [reflexivity|]. symmetry. apply Z.ltb_lt.
  change (2 ^ 15) with 32768 in Hn. nia.
Qed.

Definition change_ty (o : obj) : vty :=
  match o with OTopic => enum [(0, 0, struct [req zero t_u32]); (1, 0, struct [req empty t_str; req no t_bool])] | _ => t_str end.

Lemma change_size v o x : 0 <= v -> fits (change_ty o) x -> 1 <= zlen (c_enc (vcodec v (change_ty o)) x) <= 40000.
Proof.
  intros Hv F. rewrite <- (proj1 (size_current v (change_ty o)) x F).
  assert (St : forall s, str_ok s -> 1 <= 2 + zlen s <= 40000 - 10).
  { intros s [_ H]. change (2 ^ 15) with 32768 in H. pose proof (zlen_nonneg s). lia. }
  assert (V0 : (0 <=? v) = true) by (apply Z.leb_le; lia).
  destruct o; cbn [change_ty] in *;
    try (destruct x as [| |s| | | | | |]; try contradiction; cbn -[Z.add zlen] in F |- *; specialize (St s F); lia).
  destruct x as [| | | | | | | |tag y]; try contradiction. cbn in F. destruct F as [_ F].
  unfold enum, struct, req. destruct tag as [|[p|p|]|p]; cbn in F; try contradiction.
  - cbn -[Z.add Z.leb zlen]. rewrite V0. cbn -[Z.add Z.leb zlen]. lia.
  - destruct y as [| | | | | | |l|]; try contradiction. destruct l as [|a [|b l]]; cbn in F; try tauto.
    destruct F as [Fa _]. destruct a as [| |s| | | | | |]; try contradiction. cbn -[Z.add Z.leb zlen]. rewrite V0. cbn -[Z.add Z.leb zlen]. specialize (St s Fa). lia.
Qed.

Lemma update_old v o name change : 0 <= v < dyn_obj -> o <> OCustomSpu -> name <> [] ->
  fits (update_ty o) (UT [US name; change]) ->
  update_received v o (typed_enc v o (update_ty o) (UT [US name; change])) = Err Eof.
Proof.
  intros Hv Ho Hne F. unfold update_received, update_dec. rewrite typed_enc_old by lia.
  assert (Fs : str_ok name /\ fits (change_ty o) change) by (destruct o; try congruence; cbn in F; tauto).
  destruct Fs as [Hs Fc].
  assert (E : c_enc (vcodec v (update_ty o)) (UT [US name; change])
              = c_enc string_codec name ++ c_enc (vcodec v (change_ty o)) change).
  { assert (V0 : (0 <=? v) = true) by (apply Z.leb_le; lia).
    assert (G : forall d d' t, c_enc (vcodec v (struct [req d t_str; req d' t])) (UT [US name; change])
                = c_enc string_codec name ++ c_enc (vcodec v t) change).
    { intros d d' t. unfold struct, req. cbn [fields vcodec]. rewrite via_enc. cbn [as_t fcodec in_range c_enc hd tl].
      rewrite V0, app_nil_r. reflexivity. }
    destruct o; try congruence; apply G. }
  rewrite E, (no_length v (label o) name _ (label_ok o) Hs Hne); [reflexivity| |].
  - exact (proj2 (size_current v (change_ty o)) change Fc).
  - apply change_size; [lia|exact Fc].
Qed.

(** ** A request is not taken for one about another kind of object *)

Lemma other_kind o o' t b : tb_ty b = label o -> o' <> o -> downcast o' t b = Ok None.
Proof.
  intros Hb Hn. unfold downcast. rewrite Hb. destruct (bytes_eqb (label o) (label o')) eqn:E; [|reflexivity].
  apply labels_differ in E. congruence.
Qed.

Lemma delete_other v o o' x rest : dyn_obj <= v \/ min_delete <= v /\ o <> OMirror -> o' <> o -> body_ok v (delete_ty o) x ->
  delete_received v o' (typed_enc v o (delete_ty o) x ++ rest) = Ok None.
Proof.
  intros Hv Hn [F L]. unfold delete_received, delete_dec. destruct (dyn_obj <=? v) eqn:D.
  - apply Z.leb_le in D. rewrite typed_enc_new by exact D. rewrite <- !app_assoc.
    rewrite (typed_back v _ _ rest (label_ok o) L). cbn [bind]. apply (other_kind o); [reflexivity|exact Hn].
  - apply Z.leb_gt in D. rewrite typed_enc_old by lia. rewrite <- app_assoc. rewrite (string_back _ _ (label_ok o)). cbn [bind].
    replace (classic_delete_obj (label o)) with (Some o) by (destruct o; try reflexivity; destruct Hv as [Hv|[_ Hv]]; [lia|congruence]).
    rewrite (arrives_current v _ (delete_well_formed o) x rest F). cbn [bind]. apply (other_kind o); [reflexivity|exact Hn].
Qed.

Lemma update_other v o o' x rest : dyn_obj <= v -> o' <> o -> body_ok v (update_ty o) x ->
  update_received v o' (typed_enc v o (update_ty o) x ++ rest) = Ok None.
Proof.
  intros Hv Hn [F L]. unfold update_received, update_dec. rewrite typed_enc_new by exact Hv. rewrite <- !app_assoc.
  rewrite (typed_back v _ _ rest (label_ok o) L). cbn [bind]. apply (other_kind o); [reflexivity|exact Hn].
Qed.
