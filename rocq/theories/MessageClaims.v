(** The statements about the messages of MessageModel, and the concrete
    messages that show what goes wrong. *)
From Verif Require Import Base WireModel WireSpec WireProofs ListFacts VersionModel VersionSpec VersionProofs
  MessageModel MessageSpec VersionClaims MessageProofs.

(** ** One release *)

Lemma message_arrives v m : arrives_as (vcodec v (msg_ty m)) (vcodec v (msg_ty m)) (fits (msg_ty m)) (seen v (msg_ty m)).
Proof. exact (arrives_current v _ (messages_well_formed m)). Qed.

(** The objects of the admin and internal APIs at the version of this release. *)
Definition control_objects : list message :=
  [MTopicSpec; MTopicStatus; MPartitionSpec; MPartitionStatus; MSpuSpec; MSpuStatus; MCustomSpuSpec; MSpuGroupSpec;
   MSpuGroupStatus; MTableFormatSpec; MTableFormatStatus; MSmartModuleSpec; MMirrorSpec; MMirrorStatus; MUpdateLrs].

Lemma control_carried m : In m control_objects -> carries_all common_version (msg_ty m) = true.
Proof. unfold control_objects. cbn [In]. intro H. repeat (destruct H as [<-|H]; [vm_compute; reflexivity|]). contradiction. Qed.

Lemma control_whole m : In m control_objects ->
  arrives_as (vcodec common_version (msg_ty m)) (vcodec common_version (msg_ty m)) (fits (msg_ty m)) (fun x => x).
Proof. intro H. exact (arrives_whole _ _ (messages_well_formed m) (control_carried m H)). Qed.

(** A fetch request as the current client builds it: the three fields of the
    old SmartModule invocations are left at their defaults. *)
Definition fetch_req topic partition offset max isolation modules consumer : uval :=
  UT [topic; partition; offset; max; isolation; nil_; none; none; modules; consumer].

Lemma fetch_whole topic partition offset max isolation modules consumer rest :
  fits stream_fetch (fetch_req topic partition offset max isolation modules consumer) ->
  c_dec (vcodec 25 stream_fetch) (c_enc (vcodec 25 stream_fetch) (fetch_req topic partition offset max isolation modules consumer) ++ rest)
  = Ok (fetch_req topic partition offset max isolation modules consumer, rest).
Proof.
  intro F. pose proof (message_arrives 25 MStreamFetch _ rest F) as A. cbn [msg_ty] in A. rewrite A. clear A. f_equal. f_equal.
  unfold fetch_req, stream_fetch, struct. cbn [fields req since between seen as_t fseen hd tl].
  cbn [in_range andb Z.leb Z.compare Pos.compare Pos.compare_cont].
  unfold fetch_req, stream_fetch, struct in F. cbn [fields req since between fits ffits] in F.
  assert (K : forall t x, carries_all 25 t = true -> fits t x -> seen 25 t x = x)
    by (intros t x C Fx; exact (proj1 (all_seen_identity 25) t C x Fx)).
  destruct F as (F1 & F2 & F3 & F4 & F5 & _ & _ & _ & F6 & F7 & _).
  pose proof (K (VVec invocation) modules eq_refl F6) as K6. pose proof (K (VOpt t_str) consumer eq_refl F7) as K7.
  cbn [seen] in K6, K7. rewrite K6, K7. rewrite !K by (try assumption; vm_compute; reflexivity). reflexivity.
Qed.

Definition dedup_topic : uval :=
  UT [default_replicas; none; none; any_compression;
      UO (Some (UT [UT [UI 5; none]; UT [UT [US [100]; UM []]]])); no].

Lemma dedup_dropped : exists x, fits topic_spec x /\
  forall rest, exists y, c_dec (vcodec 11 topic_spec) (c_enc (vcodec 11 topic_spec) x ++ rest) = Ok (y, rest) /\ x <> y.
Proof.
  exists dedup_topic. split; [apply fitsb_fits; vm_compute; reflexivity|]. intro rest. eexists. split.
  - apply (message_arrives 11 MTopicSpec). apply fitsb_fits. vm_compute. reflexivity.
  - vm_compute. discriminate.
Qed.

(** ** Two releases *)

Lemma listed_understood server_max t : well_formed t ->
  arrives_as (vcodec (list_version server_max) (cut (Some server_max) t)) (vcodec (list_version server_max) t)
    (fits (cut (Some server_max) t)) (received (Some server_max) None (list_version server_max) t).
Proof. intro W. apply from_older; [|exact W]. unfold speaks, list_version. lia. Qed.

Definition sm_package : uval := UT [UT [US [97]; US [98]; v010; v010; none; none; none]; UT [UM []]].
Definition sm_answer : uval := UT [UI 3; nil_; UL [UT [US [97]; UT [UO (Some sm_package); none; UT [tag0; US [1; 2]]]; unit_]]].

Lemma watch_broken : exists x, fits (cut (Some 18) sm_watch_answer) x /\
  c_dec (vcodec (watch_version 18) sm_watch_answer) (c_enc (vcodec (watch_version 18) (cut (Some 18) sm_watch_answer)) x)
  = Err Panic /\
  exists y, c_dec (vcodec (list_version 18) sm_watch_answer) (c_enc (vcodec (list_version 18) (cut (Some 18) sm_watch_answer)) x)
  = Ok (y, []).
Proof.
  exists sm_answer. split; [apply fitsb_fits; vm_compute; reflexivity|]. split; [vm_compute; reflexivity|].
  eexists. vm_compute. reflexivity.
Qed.

(** Sending, to release 18, 16 or 13, a variant that came later. *)
Definition out_of_storage : uval := UT [UE 4 unit_; default_replica; zero; nil_; UI (-2); no; zero].
Definition mirror_detail : uval := UT [tag0; UE 5 (US [97]); tag0; UT [zero]].
Definition mirror_topic : uval :=
  UT [UE 2 (UE 1 (UT [UT [UL [UT [US [97]; US [98]; no]]; no]])); none; none; any_compression; none; no].

Lemma refused_at m r x rest : fits (msg_ty m) x -> variants_known None (Some r) r (msg_ty m) x = false ->
  c_dec (vcodec r (cut (Some r) (msg_ty m))) (c_enc (vcodec r (msg_ty m)) x ++ rest) = Err InvalidData.
Proof.
  intros F K. rewrite (to_older (Some r) r (msg_ty m) x rest (Z.le_refl _) (messages_well_formed m) F), K. reflexivity.
Qed.

Lemma new_variants :
  (exists x, fits partition_status x /\ forall rest,
     c_dec (vcodec 18 (cut (Some 18) partition_status)) (c_enc (vcodec 18 partition_status) x ++ rest) = Err InvalidData) /\
  (exists x, fits mirror_status x /\ forall rest,
     c_dec (vcodec 16 (cut (Some 16) mirror_status)) (c_enc (vcodec 16 mirror_status) x ++ rest) = Err InvalidData) /\
  (exists x, fits topic_spec x /\ forall rest,
     c_dec (vcodec 13 (cut (Some 13) topic_spec)) (c_enc (vcodec 13 topic_spec) x ++ rest) = Err InvalidData).
Proof.
  split; [|split].
  - exists out_of_storage. assert (F : fits partition_status out_of_storage) by (apply fitsb_fits; vm_compute; reflexivity).
    split; [exact F|]. intro rest. apply (refused_at MPartitionStatus); [exact F|vm_compute; reflexivity].
  - exists mirror_detail. assert (F : fits mirror_status mirror_detail) by (apply fitsb_fits; vm_compute; reflexivity).
    split; [exact F|]. intro rest. apply (refused_at MMirrorStatus); [exact F|vm_compute; reflexivity].
  - exists mirror_topic. assert (F : fits topic_spec mirror_topic) by (apply fitsb_fits; vm_compute; reflexivity).
    split; [exact F|]. intro rest. apply (refused_at MTopicSpec); [exact F|vm_compute; reflexivity].
Qed.

(** ** Create requests of the versions 9 and 10 *)

Definition a_common : uval := UT [US [97]; no; none].
Definition computed_topic : uval := UT [UE 1 (UT [UI 3; UI 2; no]); none; none; any_compression; none; no].
Definition one_partition : uval := UT [UE 0 (UT [UL [UT [zero; UL [UI 1; UI 2]; none]]]); none; none; any_compression; none; no].
Definition two_partitions : uval :=
  UT [UE 0 (UT [UL [UT [zero; UL [UI 1]; none]; UT [UI 1; UL [UI 1]; none]]]); none; none; any_compression; none; no].
Definition named_module : uval :=
  UT [UO (Some (UT [UT [US [97]; US [98]; v010; v010; none; none; tag0; none]; UT [UM []]])); none; UT [tag0; US [1; 2; 3; 4; 5]]].
Definition bare_module : uval := UT [none; none; UT [tag0; US [1; 2; 3; 4; 5]]].

Definition create_okb (v : Z) (c : create) : bool :=
  let '(o, common, spec) := c in
  fitsb create_common common && fitsb (spec_ty o) spec && (zlen (plain_enc v c) <? 2 ^ 32).
Lemma create_okb_ok v c : create_okb v c = true -> create_ok v c.
Proof.
  destruct c as [[o common] spec]. unfold create_okb, create_ok. intro H.
  apply andb_true_iff in H. destruct H as [H C]. apply andb_true_iff in H. destruct H as [A B].
  split; [exact (fitsb_fits _ _ A)|split; [exact (fitsb_fits _ _ B)|apply Z.ltb_lt; exact C]].
Qed.

(** What the client asked for, at version 10, and what the server works on. *)
Lemma topic_changed : exists common spec spec', let c := (OTopic, common, spec) in
  create_ok 10 c /\ create_received 10 (create_enc 10 c) = Ok (Some (OTopic, common, spec')) /\
  nth 3 (as_t spec) (UT []) = UE 4 unit_ /\ nth 3 (as_t spec') (UT []) = UE 0 unit_.
Proof.
  exists a_common, one_partition. eexists. split; [apply create_okb_ok; vm_compute; reflexivity|].
  split; [vm_compute; reflexivity|]. split; reflexivity.
Qed.

Lemma topic_refused : exists c, create_ok 10 c /\ create_received 10 (create_enc 10 c) = Err Eof.
Proof.
  exists (OTopic, a_common, two_partitions). split; [apply create_okb_ok; vm_compute; reflexivity|vm_compute; reflexivity].
Qed.

Lemma module_emptied : exists common spec spec', let c := (OSmartModule, common, spec) in
  create_ok 10 c /\ create_received 10 (create_enc 10 c) = Ok (Some (OSmartModule, common, spec')) /\
  nth 2 (as_t spec) (UT []) = UT [tag0; US [1; 2; 3; 4; 5]] /\ nth 2 (as_t spec') (UT []) = UT [tag0; US []].
Proof.
  exists a_common, named_module. eexists. split; [apply create_okb_ok; vm_compute; reflexivity|].
  split; [vm_compute; reflexivity|]. split; reflexivity.
Qed.

Lemma module_panics : exists c, create_ok 9 c /\ fst (fst c) = OSmartModule /\ create_received 9 (create_enc 9 c) = Err Panic.
Proof.
  exists (OSmartModule, a_common, bare_module). split; [apply create_okb_ok; vm_compute; reflexivity|].
  split; [reflexivity|vm_compute; reflexivity].
Qed.

Lemma body_okb v t x : fitsb t x && (zlen (c_enc (vcodec v t) x) <? 2 ^ 32) = true -> body_ok v t x.
Proof. intro H. apply andb_true_iff in H. destruct H as [A B]. split; [exact (fitsb_fits _ _ A)|apply Z.ltb_lt; exact B]. Qed.

Lemma a_fetch : fits stream_fetch
  (fetch_req (US [97]) (UI 1) (UI 5) (UI 1000) (UE 1 unit_)
     (UL [UT [UE 0 (US [109]); UE 1 unit_; UT [UM [(US [107], US [118])]; UO (Some (UT [UI 3; UO (Some (UD 1 5))]))]; UO (Some (US [110]))]])
     (UO (Some (US [99])))).
Proof. apply fitsb_fits. vm_compute. reflexivity. Qed.

(** ** Which version keeps what *)

Lemma topic_kept v replicas cleanup storage comp dedup system : 0 <= v ->
  seen v topic_spec (UT [replicas; UO cleanup; UO storage; UE comp unit_; UO dedup; UB system])
  = UT [seen v replica_spec replicas; from_v v 3 (seen v (VOpt cleanup_policy) (UO cleanup)) none;
        from_v v 4 (seen v (VOpt storage_config) (UO storage)) none;
        from_v v 6 (seen v compression (UE comp unit_)) any_compression;
        from_v v 12 (seen v (VOpt deduplication) (UO dedup)) none; from_v v 13 (UB system) no].
Proof.
  intro Hv. unfold topic_spec, struct, topic_fields. cbn [fields req since seen as_t fseen hd tl in_range].
  replace (0 <=? v) with true by (symmetry; apply Z.leb_le; lia). reflexivity.
Qed.

Lemma partition_kept v leader replicas cleanup storage comp dedup system mirror : 0 <= v ->
  seen v partition_spec (UT [UI leader; UL (map UI replicas); cleanup; storage; comp; dedup; UB system; mirror])
  = UT [UI leader; UL (map UI replicas); from_v v 4 (seen v (VOpt cleanup_policy) cleanup) none;
        from_v v 4 (seen v (VOpt storage_config) storage) none; from_v v 6 (seen v compression comp) any_compression;
        from_v v 12 (seen v (VOpt deduplication) dedup) none; from_v v 13 (UB system) no;
        from_v v 14 (seen v (VOpt partition_mirror) mirror) none].
Proof.
  intro Hv. unfold partition_spec, struct. cbn [fields req since seen as_t as_l fseen hd tl in_range].
  replace (0 <=? v) with true by (symmetry; apply Z.leb_le; lia). rewrite map_map. reflexivity.
Qed.

Lemma status_kept v resolution leader lsr replicas size deleted base : 0 <= v ->
  seen v partition_status (UT [resolution; leader; UI lsr; UL replicas; UI size; UB deleted; UI base])
  = UT [seen v partition_resolution resolution; seen v replica_status leader; UI lsr; UL (map (seen v replica_status) replicas);
        from_v v 5 (UI size) (UI (-2)); UB deleted; from_v v 16 (UI base) (UI 0)].
Proof.
  intro Hv. unfold partition_status, struct. cbn [fields req since seen as_t as_l fseen hd tl in_range].
  replace (0 <=? v) with true by (symmetry; apply Z.leb_le; lia). reflexivity.
Qed.

Lemma fetch_kept v topic partition offset max isolation wasm module derived modules consumer : 0 <= v ->
  seen v stream_fetch (UT [US topic; UI partition; UI offset; UI max; isolation; wasm; module; derived; modules; consumer])
  = UT [US topic; UI partition; UI offset; UI max; seen v (plain [0; 1]) isolation; from_to v 11 18 (seen v t_blob wasm) nil_;
        from_to v 16 18 (seen v (VOpt invocation) module) none; from_to v 16 18 (seen v (VOpt derived_stream) derived) none;
        from_v v 18 (seen v (VVec invocation) modules) nil_; from_v v 23 (seen v (VOpt t_str) consumer) none].
Proof.
  intro Hv. unfold stream_fetch, struct. cbn [fields req since between seen as_t as_l as_o fseen hd tl in_range].
  replace (0 <=? v) with true by (symmetry; apply Z.leb_le; lia). reflexivity.
Qed.

Lemma invocation_kept v wasm kind params name :
  - 2 ^ 15 <= v ->
  seen v invocation (UT [wasm; kind; params; UO name])
  = UT [seen v (enum [(0, 0, t_str); (1, 0, t_blob)]) wasm; seen v invocation_kind kind;
        seen v extra_params params; from_v v 25 (seen v (VOpt t_str) (UO name)) none].
Proof.
  intro Hv. unfold invocation, struct. cbn [fields always req since seen as_t as_l as_o fseen hd tl in_range].
  replace (- 2 ^ 15 <=? v) with true by (symmetry; apply Z.leb_le; exact Hv). reflexivity.
Qed.

Lemma kinds_differ : OSmartModule <> OTopic.
Proof. discriminate. Qed.

(** every compression a topic can ask for has a value *)
Lemma compression_kept v c : 0 <= c <= 5 -> fits compression (UE c unit_) /\ seen v compression (UE c unit_) = UE c unit_.
Proof.
  intro H. assert (C : c = 0 \/ c = 1 \/ c = 2 \/ c = 3 \/ c = 4 \/ c = 5) by lia.
  destruct C as [->|[->|[->|[->|[->| ->]]]]]; (split; [apply fitsb_fits; vm_compute; reflexivity|reflexivity]).
Qed.
