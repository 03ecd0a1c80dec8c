(** C78: a message arrives with the fields of its version.  C79: releases that
    agree on a version understand each other, except for later variants. *)
From Verif Require Import Base WireSpec VersionModel VersionSpec VersionProofs MessageModel MessageSpec VersionClaims MessageProofs MessageClaims.

(** ** C78 *)

Theorem C78_arrives : forall v t, well_formed t -> arrives_as (vcodec v t) (vcodec v t) (fits t) (seen v t).
Proof. exact arrives_current. Qed.
Print Assumptions C78_arrives.
Example C78_arrives_ex : well_formed topic_spec /\ fits topic_spec dedup_topic /\ seen 12 topic_spec dedup_topic = dedup_topic /\
  seen 11 topic_spec dedup_topic = UT [default_replicas; none; none; any_compression; none; no].
Proof. exact (conj (spec_well_formed OTopic) (conj (fitsb_fits topic_spec dedup_topic eq_refl) (conj eq_refl eq_refl))). Qed.

Theorem C78_size : forall v t, size_exact (vcodec v t) (fits t) /\ emits_bytes (vcodec v t) (fits t).
Proof. exact size_current. Qed.
Print Assumptions C78_size.
Example C78_size_ex : fits topic_spec dedup_topic /\ c_size (vcodec 12 topic_spec) dedup_topic = 28 /\
  c_size (vcodec 11 topic_spec) dedup_topic = 13.
Proof. exact (conj (fitsb_fits topic_spec dedup_topic eq_refl) (conj eq_refl eq_refl)). Qed.

Theorem C78_whole : forall v t, well_formed t -> carries_all v t = true ->
  arrives_as (vcodec v t) (vcodec v t) (fits t) (fun x => x).
Proof. exact arrives_whole. Qed.
Print Assumptions C78_whole.
Example C78_whole_ex : well_formed topic_spec /\ carries_all 13 topic_spec = false /\ carries_all 14 topic_spec = false /\
  carries_all 18 topic_spec = true /\ fits topic_spec mirror_topic.
Proof. exact (conj (spec_well_formed OTopic) (conj eq_refl (conj eq_refl (conj eq_refl (fitsb_fits topic_spec mirror_topic eq_refl))))). Qed.

Theorem C78_messages : forall v m,
  arrives_as (vcodec v (msg_ty m)) (vcodec v (msg_ty m)) (fits (msg_ty m)) (seen v (msg_ty m)).
Proof. exact message_arrives. Qed.
Print Assumptions C78_messages.
Example C78_messages_ex : fits (msg_ty MPartitionStatus) out_of_storage /\ fits (msg_ty MMirrorStatus) mirror_detail.
Proof. exact (conj (fitsb_fits partition_status out_of_storage eq_refl) (fitsb_fits mirror_status mirror_detail eq_refl)). Qed.

Theorem C78_control_whole : forall m, In m control_objects ->
  arrives_as (vcodec common_version (msg_ty m)) (vcodec common_version (msg_ty m)) (fits (msg_ty m)) (fun x => x).
Proof. exact control_whole. Qed.
Print Assumptions C78_control_whole.
Example C78_control_whole_ex : In MTopicSpec control_objects /\ fits (msg_ty MTopicSpec) mirror_topic.
Proof. exact (conj (or_introl eq_refl) (fitsb_fits topic_spec mirror_topic eq_refl)). Qed.

Theorem C78_fetch_whole : forall topic partition offset max isolation modules consumer rest,
  fits stream_fetch (fetch_req topic partition offset max isolation modules consumer) ->
  c_dec (vcodec 25 stream_fetch) (c_enc (vcodec 25 stream_fetch) (fetch_req topic partition offset max isolation modules consumer) ++ rest)
  = Ok (fetch_req topic partition offset max isolation modules consumer, rest).
Proof. exact fetch_whole. Qed.
Print Assumptions C78_fetch_whole.
Example C78_fetch_whole_ex : fits stream_fetch
  (fetch_req (US [97]) (UI 1) (UI 5) (UI 1000) (UE 1 unit_)
     (UL [UT [UE 0 (US [109]); UE 1 unit_; UT [UM [(US [107], US [118])]; UO (Some (UT [UI 3; UO (Some (UD 1 5))]))]; UO (Some (US [110]))]])
     (UO (Some (US [99])))).
Proof. exact a_fetch. Qed.

(** A SmartModule before version 10: its code arrives, nothing else. *)
Theorem C78_specs : forall v o, 0 <= v -> arrives_as (spec_codec v o) (spec_codec v o) (fits (spec_ty o)) (spec_seen v o).
Proof. exact spec_arrives. Qed.
Print Assumptions C78_specs.
Example C78_specs_ex : fits (spec_ty OSmartModule) named_module /\
  spec_seen 9 OSmartModule named_module = UT [none; none; UT [tag0; US [1; 2; 3; 4; 5]]] /\ spec_seen 19 OSmartModule named_module = named_module.
Proof. exact (conj (fitsb_fits (spec_ty OSmartModule) named_module eq_refl) (conj eq_refl eq_refl)). Qed.

(** From which version on the parts of topics, partitions, their status and
    fetch requests are kept. *)
Theorem C78_topic_kept : forall v replicas cleanup storage comp dedup system, 0 <= v ->
  seen v topic_spec (UT [replicas; UO cleanup; UO storage; UE comp unit_; UO dedup; UB system])
  = UT [seen v replica_spec replicas; from_v v 3 (seen v (VOpt cleanup_policy) (UO cleanup)) none;
        from_v v 4 (seen v (VOpt storage_config) (UO storage)) none;
        from_v v 6 (seen v compression (UE comp unit_)) any_compression;
        from_v v 12 (seen v (VOpt deduplication) (UO dedup)) none; from_v v 13 (UB system) no].
Proof. exact topic_kept. Qed.
Print Assumptions C78_topic_kept.
Example C78_topic_kept_ex : fits topic_spec (UT [default_replicas; none; none; UE 1 unit_; none; UB true]).
Proof. exact (fitsb_fits topic_spec (UT [default_replicas; none; none; UE 1 unit_; none; UB true]) eq_refl). Qed.

Theorem C78_compression_kept : forall v c, 0 <= c <= 5 ->
  fits compression (UE c unit_) /\ seen v compression (UE c unit_) = UE c unit_.
Proof. exact compression_kept. Qed.
Print Assumptions C78_compression_kept.
Example C78_compression_kept_ex : 0 <= 5 <= 5.
Proof. exact (conj (Zle_0_pos 5) (Z.le_refl 5)). Qed.

Theorem C78_partition_kept : forall v leader replicas cleanup storage comp dedup system mirror, 0 <= v ->
  seen v partition_spec (UT [UI leader; UL (map UI replicas); cleanup; storage; comp; dedup; UB system; mirror])
  = UT [UI leader; UL (map UI replicas); from_v v 4 (seen v (VOpt cleanup_policy) cleanup) none;
        from_v v 4 (seen v (VOpt storage_config) storage) none; from_v v 6 (seen v compression comp) any_compression;
        from_v v 12 (seen v (VOpt deduplication) dedup) none; from_v v 13 (UB system) no;
        from_v v 14 (seen v (VOpt partition_mirror) mirror) none].
Proof. exact partition_kept. Qed.
Print Assumptions C78_partition_kept.
Example C78_partition_kept_ex : fits partition_spec (UT [UI 1; UL (map UI [1; 2]); none; none; UE 2 unit_; none; no; none]).
Proof. exact (fitsb_fits partition_spec (UT [UI 1; UL (map UI [1; 2]); none; none; UE 2 unit_; none; no; none]) eq_refl). Qed.

Theorem C78_status_kept : forall v resolution leader lsr replicas size deleted base, 0 <= v ->
  seen v partition_status (UT [resolution; leader; UI lsr; UL replicas; UI size; UB deleted; UI base])
  = UT [seen v partition_resolution resolution; seen v replica_status leader; UI lsr; UL (map (seen v replica_status) replicas);
        from_v v 5 (UI size) (UI (-2)); UB deleted; from_v v 16 (UI base) (UI 0)].
Proof. exact status_kept. Qed.
Print Assumptions C78_status_kept.
Example C78_status_kept_ex : fits partition_status (UT [UE 2 unit_; UT [UI 1; UI 10; UI 12]; UI 3; UL [UT [UI 2; UI 9; UI 9]]; UI 500; no; UI 4]).
Proof. exact (fitsb_fits partition_status (UT [UE 2 unit_; UT [UI 1; UI 10; UI 12]; UI 3; UL [UT [UI 2; UI 9; UI 9]]; UI 500; no; UI 4]) eq_refl). Qed.

Theorem C78_fetch_kept : forall v topic partition offset max isolation wasm module derived modules consumer, 0 <= v ->
  seen v stream_fetch (UT [US topic; UI partition; UI offset; UI max; isolation; wasm; module; derived; modules; consumer])
  = UT [US topic; UI partition; UI offset; UI max; seen v (plain [0; 1]) isolation; from_to v 11 18 (seen v t_blob wasm) nil_;
        from_to v 16 18 (seen v (VOpt invocation) module) none; from_to v 16 18 (seen v (VOpt derived_stream) derived) none;
        from_v v 18 (seen v (VVec invocation) modules) nil_; from_v v 23 (seen v (VOpt t_str) consumer) none].
Proof. exact fetch_kept. Qed.
Print Assumptions C78_fetch_kept.
Example C78_fetch_kept_ex : 0 <= 18 /\ from_to 18 11 18 1 0 = 1 /\ from_v 18 18 1 0 = 1.
Proof. exact (conj (Zle_bool_imp_le 0 18 eq_refl) (conj eq_refl eq_refl)). Qed.

Theorem C78_old_version_refuted : exists x, fits topic_spec x /\
  forall rest, exists y, c_dec (vcodec 11 topic_spec) (c_enc (vcodec 11 topic_spec) x ++ rest) = Ok (y, rest) /\ x <> y.
Proof. exact dedup_dropped. Qed.
Print Assumptions C78_old_version_refuted.

(** ** C79 *)

(** Both releases speak the version: what arrives, exactly. *)
Theorem C79_agree : forall rs rr v t, speaks rs v -> speaks rr v -> well_formed t -> forall x rest, fits (cut rs t) x ->
  c_dec (vcodec v (cut rr t)) (c_enc (vcodec v (cut rs t)) x ++ rest)
  = if variants_known rs rr v t x then Ok (received rs rr v t x, rest) else Err InvalidData.
Proof. exact answer_between. Qed.
Print Assumptions C79_agree.
Example C79_agree_ex : speaks (Some 18) 12 /\ speaks (Some 12) 12 /\ well_formed topic_spec /\ fits (cut (Some 18) topic_spec) dedup_topic /\
  variants_known (Some 18) (Some 12) 12 topic_spec dedup_topic = true /\
  received (Some 18) (Some 12) 12 topic_spec dedup_topic
  = UT [default_replicas; none; none; any_compression; UO (Some (UT [UT [UI 5; none]; UT [UT [US [100]; UM []]]]))].
Proof.
  exact (conj (Zle_bool_imp_le 12 18 eq_refl) (conj (Zle_bool_imp_le 12 12 eq_refl) (conj (spec_well_formed OTopic)
    (conj (fitsb_fits (cut (Some 18) topic_spec) dedup_topic eq_refl) (conj eq_refl eq_refl))))).
Qed.

Theorem C79_from_older : forall rs v t, speaks rs v -> well_formed t ->
  arrives_as (vcodec v (cut rs t)) (vcodec v t) (fits (cut rs t)) (received rs None v t).
Proof. exact from_older. Qed.
Print Assumptions C79_from_older.
Example C79_from_older_ex : speaks (Some 18) 18 /\ fits (cut (Some 18) sm_watch_answer) sm_answer.
Proof. exact (conj (Zle_bool_imp_le 18 18 eq_refl) (fitsb_fits (cut (Some 18) sm_watch_answer) sm_answer eq_refl)). Qed.

(** Lists ask at the version both know. *)
Theorem C79_listed : forall server_max t, well_formed t ->
  arrives_as (vcodec (list_version server_max) (cut (Some server_max) t)) (vcodec (list_version server_max) t)
    (fits (cut (Some server_max) t)) (received (Some server_max) None (list_version server_max) t).
Proof. exact listed_understood. Qed.
Print Assumptions C79_listed.
Example C79_listed_ex : fits (cut (Some 18) sm_watch_answer) sm_answer.
Proof. exact (fitsb_fits (cut (Some 18) sm_watch_answer) sm_answer eq_refl). Qed.

(** Watching does not: the answer of a server of the release before is not
    understood, although it is when listed. *)
Theorem C79_watch_refuted : exists x, fits (cut (Some 18) sm_watch_answer) x /\
  c_dec (vcodec (watch_version 18) sm_watch_answer) (c_enc (vcodec (watch_version 18) (cut (Some 18) sm_watch_answer)) x)
  = Err Panic /\
  exists y, c_dec (vcodec (list_version 18) sm_watch_answer) (c_enc (vcodec (list_version 18) (cut (Some 18) sm_watch_answer)) x)
  = Ok (y, []).
Proof. exact watch_broken. Qed.
Print Assumptions C79_watch_refuted.

Theorem C79_new_variants_refuted :
  (exists x, fits partition_status x /\ forall rest,
     c_dec (vcodec 18 (cut (Some 18) partition_status)) (c_enc (vcodec 18 partition_status) x ++ rest) = Err InvalidData) /\
  (exists x, fits mirror_status x /\ forall rest,
     c_dec (vcodec 16 (cut (Some 16) mirror_status)) (c_enc (vcodec 16 mirror_status) x ++ rest) = Err InvalidData) /\
  (exists x, fits topic_spec x /\ forall rest,
     c_dec (vcodec 13 (cut (Some 13) topic_spec)) (c_enc (vcodec 13 topic_spec) x ++ rest) = Err InvalidData).
Proof. exact new_variants. Qed.
Print Assumptions C79_new_variants_refuted.
