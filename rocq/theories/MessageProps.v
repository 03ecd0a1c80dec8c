(** C80: the object a client asks to create, delete or change is the one the
    server works on. *)
From Verif Require Import Base WireSpec VersionModel VersionSpec VersionProofs MessageModel MessageSpec VersionClaims MessageProofs MessageClaims.

Theorem C80_create : forall v c rest, dyn_obj <= v -> create_ok v c ->
  create_received v (create_enc v c ++ rest) = Ok (Some (create_seen v c)).
Proof. exact create_new. Qed.
Print Assumptions C80_create.
Example C80_create_ex : create_ok 19 (OSmartModule, a_common, named_module) /\
  create_seen 19 (OSmartModule, a_common, named_module) = (OSmartModule, a_common, named_module) /\
  create_ok 19 (OTopic, a_common, mirror_topic) /\ create_seen 19 (OTopic, a_common, mirror_topic) = (OTopic, a_common, mirror_topic).
Proof.
  exact (conj (create_okb_ok 19 (OSmartModule, a_common, named_module) eq_refl) (conj eq_refl
    (conj (create_okb_ok 19 (OTopic, a_common, mirror_topic) eq_refl) eq_refl))).
Qed.

Theorem C80_create_old : forall v c rest, min_create <= v < dyn_obj -> create_ok v c -> survives_conversion v c ->
  create_received v (create_enc v c ++ rest) = Ok (Some (create_seen v c)).
Proof. exact create_old. Qed.
Print Assumptions C80_create_old.
Example C80_create_old_ex : create_ok 10 (OTopic, a_common, computed_topic) /\ survives_conversion 10 (OTopic, a_common, computed_topic) /\
  create_seen 10 (OTopic, a_common, computed_topic) = (OTopic, a_common, computed_topic).
Proof.
  exact (conj (create_okb_ok 10 (OTopic, a_common, computed_topic) eq_refl)
    (conj (ex_intro _ _ (ex_intro _ _ (conj eq_refl (or_introl eq_refl)))) eq_refl)).
Qed.

Theorem C80_create_mirror_old : forall v common spec rest, v < dyn_obj -> fits create_common common ->
  create_received v (create_enc v (OMirror, common, spec) ++ rest) = Err InvalidData.
Proof. exact create_mirror_old. Qed.
Print Assumptions C80_create_mirror_old.
Example C80_create_mirror_old_ex : 10 < dyn_obj /\ fits create_common a_common.
Proof. exact (conj eq_refl (fitsb_fits create_common a_common eq_refl)). Qed.

(** Versions 9 and 10, which servers announce: a topic with an assigned
    partition is created with another compression, *)
Theorem C80_topic_changed_refuted : exists common spec spec', let c := (OTopic, common, spec) in
  create_ok 10 c /\ create_received 10 (create_enc 10 c) = Ok (Some (OTopic, common, spec')) /\
  nth 3 (as_t spec) (UT []) = UE 4 unit_ /\ nth 3 (as_t spec') (UT []) = UE 0 unit_.
Proof. exact topic_changed. Qed.
Print Assumptions C80_topic_changed_refuted.

(** with two it is refused, *)
Theorem C80_topic_refused_refuted : exists c, create_ok 10 c /\ create_received 10 (create_enc 10 c) = Err Eof.
Proof. exact topic_refused. Qed.
Print Assumptions C80_topic_refused_refuted.

(** a SmartModule is created without its code, *)
Theorem C80_module_emptied_refuted : exists common spec spec', let c := (OSmartModule, common, spec) in
  create_ok 10 c /\ create_received 10 (create_enc 10 c) = Ok (Some (OSmartModule, common, spec')) /\
  nth 2 (as_t spec) (UT []) = UT [tag0; US [1; 2; 3; 4; 5]] /\ nth 2 (as_t spec') (UT []) = UT [tag0; US []].
Proof. exact module_emptied. Qed.
Print Assumptions C80_module_emptied_refuted.

(** or makes the server panic. *)
Theorem C80_module_panics_refuted : exists c, create_ok 9 c /\ fst (fst c) = OSmartModule /\
  create_received 9 (create_enc 9 c) = Err Panic.
Proof. exact module_panics. Qed.
Print Assumptions C80_module_panics_refuted.

Theorem C80_delete : forall v o x rest, dyn_obj <= v -> body_ok v (delete_ty o) x ->
  delete_received v o (typed_enc v o (delete_ty o) x ++ rest) = Ok (Some (seen v (delete_ty o) x)).
Proof. exact delete_new. Qed.
Print Assumptions C80_delete.
Example C80_delete_ex : body_ok 19 (delete_ty OTopic) (UT [US [97]; UB true]) /\
  seen 19 (delete_ty OTopic) (UT [US [97]; UB true]) = UT [US [97]; UB true] /\
  seen 12 (delete_ty OTopic) (UT [US [97]; UB true]) = UT [US [97]; UB false].
Proof. exact (conj (body_okb 19 (delete_ty OTopic) (UT [US [97]; UB true]) eq_refl) (conj eq_refl eq_refl)). Qed.

Theorem C80_delete_old : forall v o x rest, min_delete <= v < dyn_obj -> o <> OMirror -> body_ok v (delete_ty o) x ->
  delete_received v o (typed_enc v o (delete_ty o) x ++ rest) = Ok (Some (seen v (delete_ty o) x)).
Proof. exact delete_old. Qed.
Print Assumptions C80_delete_old.
Example C80_delete_old_ex : body_ok 5 (delete_ty OCustomSpu) (UT [UE 1 (US [97]); UB false]) /\
  seen 5 (delete_ty OCustomSpu) (UT [UE 1 (US [97]); UB false]) = UT [UE 1 (US [97]); UB false].
Proof. exact (conj (body_okb 5 (delete_ty OCustomSpu) (UT [UE 1 (US [97]); UB false]) eq_refl) eq_refl). Qed.

Theorem C80_delete_mirror_old : forall v x rest, v < dyn_obj ->
  delete_received v OMirror (typed_enc v OMirror (delete_ty OMirror) x ++ rest) = Err InvalidData.
Proof. exact delete_mirror_old. Qed.
Print Assumptions C80_delete_mirror_old.
Example C80_delete_mirror_old_ex : 10 < dyn_obj.
Proof. exact eq_refl. Qed.

Theorem C80_update : forall v o x rest, dyn_obj <= v -> body_ok v (update_ty o) x ->
  update_received v o (typed_enc v o (update_ty o) x ++ rest) = Ok (Some (seen v (update_ty o) x)).
Proof. exact update_new. Qed.
Print Assumptions C80_update.
Example C80_update_ex : body_ok 19 (update_ty OTopic) (UT [US [97]; UE 0 (UT [UI 3])]) /\
  seen 19 (update_ty OTopic) (UT [US [97]; UE 0 (UT [UI 3])]) = UT [US [97]; UE 0 (UT [UI 3])].
Proof. exact (conj (body_okb 19 (update_ty OTopic) (UT [US [97]; UE 0 (UT [UI 3])]) eq_refl) eq_refl). Qed.

(** Before version 11, which servers announce too, no update of a named object
    is understood. *)
Theorem C80_update_old : forall v o name change, 0 <= v < dyn_obj -> o <> OCustomSpu -> name <> [] ->
  fits (update_ty o) (UT [US name; change]) ->
  update_received v o (typed_enc v o (update_ty o) (UT [US name; change])) = Err Eof.
Proof. exact update_old. Qed.
Print Assumptions C80_update_old.
Example C80_update_old_ex : min_update < dyn_obj /\ fits (update_ty OTopic) (UT [US [97]; UE 0 (UT [UI 3])]).
Proof. exact (conj eq_refl (fitsb_fits (update_ty OTopic) (UT [US [97]; UE 0 (UT [UI 3])]) eq_refl)). Qed.

(** A request about one kind of object is not taken for one about another. *)
Theorem C80_delete_other : forall v o o' x rest, dyn_obj <= v \/ min_delete <= v /\ o <> OMirror -> o' <> o ->
  body_ok v (delete_ty o) x -> delete_received v o' (typed_enc v o (delete_ty o) x ++ rest) = Ok None.
Proof. exact delete_other. Qed.
Print Assumptions C80_delete_other.
Example C80_delete_other_ex : body_ok 19 (delete_ty OTopic) (UT [US [97]; UB true]) /\ OSmartModule <> OTopic.
Proof. exact (conj (body_okb 19 (delete_ty OTopic) (UT [US [97]; UB true]) eq_refl) kinds_differ). Qed.

Theorem C80_update_other : forall v o o' x rest, dyn_obj <= v -> o' <> o ->
  body_ok v (update_ty o) x -> update_received v o' (typed_enc v o (update_ty o) x ++ rest) = Ok None.
Proof. exact update_other. Qed.
Print Assumptions C80_update_other.
Example C80_update_other_ex : body_ok 19 (update_ty OTopic) (UT [US [97]; UE 0 (UT [UI 3])]) /\ OSmartModule <> OTopic.
Proof. exact (conj (body_okb 19 (update_ty OTopic) (UT [US [97]; UE 0 (UT [UI 3])]) eq_refl) kinds_differ). Qed.
