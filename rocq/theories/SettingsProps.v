(** Settings of topics: C109, C110. *)
From Coq Require Import ZArith List Bool.
Import ListNotations.
From Verif Require Import WireModel StorageModel StorageSpec SettingsModel SettingsSpec SettingsClaims.
Open Scope Z_scope.

(** The storage of every partition of a topic is as the flags say, on whatever SPU it is. *)
Theorem C109_flags : forall f m have k p d, fits (f_retention f) (f_segment f) ->
  In (k, p) (create_partitions (spec_of_flags f) m have) -> ~ In k (map fst have) ->
  as_asked (f_retention f) (f_segment f) (f_max f) d (update_from_replica (replica_of p) d).
Proof. exact flags_stored. Qed.
Print Assumptions C109_flags.
Example C109_flags_example : exists p, In (1, p) (create_partitions (spec_of_flags (mkFlags 3 2 false None (Some (mkDur 3600 0)) (Some 65536) (Some 1048576) (Some Gzip) true 9 (mkDur 60 0) false)) [(0, [1; 2]); (1, [2; 3])] []) /\
  c_seg_max (update_from_replica (replica_of p) (spu_config 1073741824 4096 10)) = 65536.
Proof. eexists. split; [right; left; reflexivity | reflexivity]. Qed.

(** The same for a topic created from a file. *)
Theorem C109_file : forall y m have k p d, fits (y_retention y) (y_segment y) ->
  In (k, p) (create_partitions (spec_of_file y) m have) -> ~ In k (map fst have) ->
  as_asked (y_retention y) (y_segment y) (y_max y) d (update_from_replica (replica_of p) d).
Proof. exact file_stored. Qed.
Print Assumptions C109_file.
Example C109_file_example : exists p, In (0, p) (create_partitions (spec_of_file (mkFile None (Some 2) None None None (Some (mkDur 20 5)) None None None)) [(0, [1])] []) /\
  c_retention (update_from_replica (replica_of p) (spu_config 1073741824 4096 10)) = 20.
Proof. eexists. split; [left; reflexivity | reflexivity]. Qed.

(** Compression, deduplication and the mark of system topics reach the partitions, and each partition has the replicas planned for it. *)
Theorem C109_others : forall t m have k p, In (k, p) (create_partitions t m have) -> ~ In k (map fst have) ->
  r_compression (replica_of p) = t_compression t /\ r_dedup (replica_of p) = t_dedup t /\ p_system p = t_system t /\ In (k, p_replicas p) m.
Proof. exact others_stored. Qed.
Print Assumptions C109_others.

(** What the flags say about them, and about partitions and replicas, is what the topic is created with. *)
Theorem C109_asked : forall f,
  t_compression (spec_of_flags f) = match f_compression f with Some a => a | None => AnyCompression end /\
  t_dedup (spec_of_flags f) = (if f_dedup f then Some (mkDedup (f_count f) (Some (f_age f)) default_filter []) else None) /\
  t_system (spec_of_flags f) = f_system f /\
  (forall m, f_maps f = Some m -> t_replicas (spec_of_flags f) = Assigned m) /\
  (f_maps f = None -> 0 <= f_replication f < 2 ^ 15 -> t_replicas (spec_of_flags f) = Computed (f_partitions f) (f_replication f) (f_ignore_rack f)).
Proof. exact flags_others. Qed.
Print Assumptions C109_asked.

(** Every planned partition that is not there yet is created. *)
Theorem C109_every : forall t m have k rs, In (k, rs) m -> ~ In k (map fst have) -> In (k, from_replicas rs t) (create_partitions t m have).
Proof. exact every_partition. Qed.
Print Assumptions C109_every.

(** Partitions that exist keep their settings. *)
Theorem C109_existing : forall t m have k p, In k (map fst have) -> (In (k, p) (create_partitions t m have) <-> In (k, p) have).
Proof. exact existing_partition. Qed.
Print Assumptions C109_existing.
Example C109_existing_example : In 0 (map fst [(0, from_replicas [1] (spec_of_flags plain))]).
Proof. left. reflexivity. Qed.

(** A file and flags that ask for the same create the same topic. *)
Theorem C109_same : forall f y, same_request f y -> 0 <= f_replication f -> f_replication f < 2 ^ 15 -> spec_of_flags f = spec_of_file y.
Proof. exact same_spec. Qed.
Print Assumptions C109_same.
Example C109_same_example : same_request (mkFlags 3 2 false None (Some (mkDur 3600 0)) (Some 65536) (Some 1048576) (Some Gzip) true 9 (mkDur 60 0) false)
  (mkFile (Some 3) (Some 2) None None (Some 1048576) (Some (mkDur 3600 0)) (Some 65536) (Some Gzip) (Some (mkDedup 9 (Some (mkDur 60 0)) default_filter []))).
Proof. repeat split. Qed.

(** The settings are accepted exactly within the documented limits. *)
Theorem C109_checked : forall f, fits (f_retention f) (f_segment f) -> match f_max f with Some m => 0 <= m | None => True end ->
  validate_config (spec_of_flags f) = None <-> within_limits (f_retention f) (f_segment f) (f_max f).
Proof. exact flags_checked. Qed.
Print Assumptions C109_checked.
Example C109_checked_example : within_limits (Some (mkDur 10 0)) (Some 1024) (Some 2048) /\ ~ within_limits None None (Some 1000000000).
Proof. unfold within_limits. split; [|intros (_ & _ & _ & H); vm_compute in H; exact (H eq_refl)]. cbn [d_secs]. repeat split; vm_compute; discriminate. Qed.

(** The same for a file. *)
Theorem C109_file_checked : forall y, fits (y_retention y) (y_segment y) -> match y_max y with Some m => 0 <= m | None => True end ->
  validate_config (spec_of_file y) = None <-> within_limits (y_retention y) (y_segment y) (y_max y).
Proof. exact file_checked. Qed.
Print Assumptions C109_file_checked.

(** Settings that are refused are refused for the reason that is given. *)
Theorem C109_reason : forall t e, validate_config t = Some e ->
  match e with
  | ShortRetention => exists r, t_retention t = Some r /\ r < 10
  | SmallSegment => exists s m, t_storage t = Some (Some s, m) /\ s < 1024
  | SmallPartition => exists s m, t_storage t = Some (s, Some m) /\ m < 2048
  | PartitionBelowSegment => exists s m, t_storage t = Some (s, Some m) /\ m < match s with Some s => s | None => 2 ^ 30 end
  end.
Proof. exact reasons. Qed.
Print Assumptions C109_reason.
Example C109_reason_example : validate_config (spec_of_flags (with_segment 100)) = Some SmallSegment.
Proof. reflexivity. Qed.

(** A file is readable unless it asks for deduplication over 0 records. *)
Theorem C109_taken : forall y, file_accepted y = true <-> forall d, y_dedup y = Some d -> x_count d <> 0.
Proof. exact file_taken. Qed.
Print Assumptions C109_taken.

(** A topic is accepted exactly if its name is valid, its settings are within the limits, its deduplication module exists and its partitions make sense. *)
Theorem C109_admitted : forall named modules mapped t, admitted named modules mapped t = true <->
  named = true /\ validate_config t = None /\ (forall d, t_dedup t = Some d -> In (x_uses d) modules) /\
  match t_replicas t with Assigned m => mapped m = true | Computed p f _ => p <> 0 /\ f <> 0 end.
Proof. exact admitted_exactly. Qed.
Print Assumptions C109_admitted.

(** With accepted settings the storage works as C12 to C23 describe it, if segments are below 2 GiB. *)
Theorem C109_storage : forall t rs d, validate_config t = None -> config_ok d -> (forall s m, t_storage t = Some (Some s, m) -> s < 2 ^ 31) ->
  config_ok (update_from_replica (replica_of (from_replicas rs t)) d).
Proof. exact storage_sane. Qed.
Print Assumptions C109_storage.
Example C109_storage_example : config_ok (spu_config 1073741824 4096 1310720) /\ validate_config (spec_of_flags (mkFlags 3 2 false None (Some (mkDur 3600 0)) (Some 65536) (Some 1048576) (Some Gzip) true 9 (mkDur 60 0) false)) = None.
Proof. split; [|reflexivity]. unfold config_ok, spu_config. cbn [c_seg_max c_interval c_entries c_retention]. repeat split; vm_compute; congruence. Qed.

(** On an SPU with the usual configuration a partition of an accepted topic has room for a segment. *)
Theorem C109_room : forall t rs, validate_config t = None -> (forall s m, t_storage t = Some (Some s, m) -> s < 2 ^ 32) ->
  let c := update_from_replica (replica_of (from_replicas rs t)) (spu_config SPU_LOG_SEGMENT_MAX_BYTES 4096 1310720) in c_seg_max c <= c_part_max c.
Proof. exact room_for_segment. Qed.
Print Assumptions C109_room.

(** The retention that is listed is the one in effect. *)
Theorem C109_shown : forall t rs segment interval entries,
  shown_retention t = c_retention (update_from_replica (replica_of (from_replicas rs t)) (spu_config segment interval entries)).
Proof. exact shown. Qed.
Print Assumptions C109_shown.

(** Not so for sizes of 4 GiB and more: 5 GB are taken for 705 MB. *)
Theorem C109_wrapped_refuted : exists f s, f_segment f = Some s /\ s = 5000000000 /\ admitted true [] (fun _ => true) (spec_of_flags f) = true /\
  forall rs d, c_seg_max (update_from_replica (replica_of (from_replicas rs (spec_of_flags f))) d) = 705032704.
Proof. exact segment_too_large. Qed.
Print Assumptions C109_wrapped_refuted.

(** In general the size is taken modulo 2^32. *)
Theorem C109_segment : forall f s rs d, f_segment f = Some s ->
  c_seg_max (update_from_replica (replica_of (from_replicas rs (spec_of_flags f))) d) = s mod 2 ^ 32.
Proof. exact segment_wraps. Qed.
Print Assumptions C109_segment.

(** 4 GiB are refused for being less than a kilobyte. *)
Theorem C109_refused_refuted : exists f s, f_segment f = Some s /\ s = 2 ^ 32 /\ validate_config (spec_of_flags f) = Some SmallSegment.
Proof. exact segment_refused. Qed.
Print Assumptions C109_refused_refuted.

(** Records to be kept for 136 years and ten seconds are kept for ten seconds. *)
Theorem C109_shorter_refuted : exists f x, f_retention f = Some x /\ d_secs x = 2 ^ 32 + 10 /\ admitted true [] (fun _ => true) (spec_of_flags f) = true /\
  forall rs d, c_retention (update_from_replica (replica_of (from_replicas rs (spec_of_flags f))) d) = 10.
Proof. exact retention_wraps. Qed.
Print Assumptions C109_shorter_refuted.

(** A segment size of 4 GiB - 1 is accepted, and then a segment is never full. *)
Theorem C109_never_full_refuted : exists f, admitted true [] (fun _ => true) (spec_of_flags f) = true /\ f_segment f = Some (2 ^ 32 - 1) /\
  forall rs d now m b, snd (append_batch (update_from_replica (replica_of (from_replicas rs (spec_of_flags f))) d) now m b) <> Full.
Proof. exact never_full. Qed.
Print Assumptions C109_never_full_refuted.

(** A replication of -1 is accepted as 4294967295. *)
Theorem C109_replication_refuted : exists f, f_replication f = -1 /\ admitted true [] (fun _ => true) (spec_of_flags f) = true /\
  t_replicas (spec_of_flags f) = Computed 1 4294967295 false.
Proof. exact negative_replication. Qed.
Print Assumptions C109_replication_refuted.

(** Deduplication over 0 records is accepted from flags, and refused from a file. *)
Theorem C109_zero_refuted : exists f, f_dedup f = true /\ f_count f = 0 /\ admitted true [default_filter] (fun _ => true) (spec_of_flags f) = true /\
  forall y, same_request f y -> file_accepted y = false.
Proof. exact zero_count. Qed.
Print Assumptions C109_zero_refuted.

(** The deduplication module of a topic looks back as far as the bounds say, and is told the bounds and the parameters given, of which the last wins. *)
Theorem C109_dedup : forall d, let i := dedup_to_invocation d in
  i_module i = x_uses d /\ i_last i = x_count d /\ i_age i = x_age d /\
  forall k, get k (i_params i) = last_for k (x_with d)
    (if k =? p_count then Some (x_count d) else if k =? p_age then option_map as_millis (x_age d) else None).
Proof. exact dedup_told. Qed.
Print Assumptions C109_dedup.

(** Unless the parameters name them again, the module is told the bounds. *)
Theorem C109_bounds : forall d, ~ In p_count (map fst (x_with d)) -> ~ In p_age (map fst (x_with d)) ->
  get p_count (i_params (dedup_to_invocation d)) = Some (x_count d) /\ get p_age (i_params (dedup_to_invocation d)) = option_map as_millis (x_age d).
Proof. exact dedup_bounds. Qed.
Print Assumptions C109_bounds.
Example C109_bounds_example : ~ In p_count (map fst [(7, 3)]) /\ get p_age (i_params (dedup_to_invocation (mkDedup 5 (Some (mkDur 2 500000000)) default_filter [(7, 3)]))) = Some 2500.
Proof. split; [intros [H | []]; discriminate | reflexivity]. Qed.

(** A parameter called count overrides what the module is told, but not how far it looks back. *)
Theorem C109_override_refuted : exists d n, x_count d = 5 /\ i_last (dedup_to_invocation d) = 5 /\ get p_count (i_params (dedup_to_invocation d)) = Some n /\ n = 100.
Proof. exact dedup_overridden. Qed.
Print Assumptions C109_override_refuted.

(** An age below a millisecond is told as none. *)
Theorem C109_age_refuted : exists d, x_age d = Some (mkDur 0 999999) /\ get p_age (i_params (dedup_to_invocation d)) = Some 0.
Proof. exact dedup_short_age. Qed.
Print Assumptions C109_age_refuted.

(** A dry run says what would happen and changes nothing. *)
Theorem C109_dry : forall admit key t topics, fst (create admit true key t topics) = topics /\
  snd (create admit true key t topics) = snd (create admit false key t topics).
Proof. exact dry_run. Qed.
Print Assumptions C109_dry.

(** A topic that is reported as created was accepted, is new and is there. *)
Theorem C109_created : forall admit key t topics topics', create admit false key t topics = (topics', true) ->
  admit t = true /\ ~ In key (map fst topics) /\ topics' = topics ++ [(key, t)].
Proof. exact created. Qed.
Print Assumptions C109_created.
Example C109_created_example : create (fun _ => true) false 3 (spec_of_flags plain) [(2, spec_of_flags plain)] = ([(2, spec_of_flags plain); (3, spec_of_flags plain)], true).
Proof. reflexivity. Qed.

(** One that is not was not accepted or exists already, and nothing changes. *)
Theorem C109_not_created : forall admit dry key t topics topics', create admit dry key t topics = (topics', false) ->
  topics' = topics /\ (admit t = false \/ In key (map fst topics)).
Proof. exact not_created. Qed.
Print Assumptions C109_not_created.
Example C109_not_created_example : create (fun _ => true) false 2 (spec_of_flags plain) [(2, spec_of_flags plain)] = ([(2, spec_of_flags plain)], false).
Proof. reflexivity. Qed.

(** A topic to which partitions are added then has that many more. *)
Theorem C110_number : forall n count, 0 <= n -> 0 <= count -> n + count < 2 ^ 32 -> partitions_after n count = n + count.
Proof. exact added_number. Qed.
Print Assumptions C110_number.
Example C110_number_example : partitions_after 3 2 = 5.
Proof. reflexivity. Qed.

(** If no other topic changes meanwhile, the command reports success only once the topic has the partitions. *)
Theorem C110_reported : forall topic n count l m, 0 <= n -> 0 <= count -> n + count < 2 ^ 32 -> only_about topic l ->
  add_partition n count l = Some m -> m = n + count /\ seen topic (n + count) l.
Proof. exact added_own. Qed.
Print Assumptions C110_reported.
Example C110_reported_example : only_about 7 [Some [(7, 2)]; Some []; Some [(7, 3)]] /\ add_partition 2 1 [Some [(7, 2)]; Some []; Some [(7, 3)]] = Some 3.
Proof. split; [|reflexivity]. intros cs c [E | [E | [E | []]]] I; injection E as <-; [destruct I as [<- | []] | destruct I | destruct I as [<- | []]]; reflexivity. Qed.

(** Once the topic is seen to have them in time, it reports success. *)
Theorem C110_seen : forall topic n count l, 0 <= n -> 0 <= count -> n + count < 2 ^ 32 -> seen topic (n + count) l -> add_partition n count l = Some (n + count).
Proof. exact added_seen. Qed.
Print Assumptions C110_seen.
Example C110_seen_example : seen 7 3 [Some [(8, 1)]; Some [(7, 3)]; None].
Proof. exists [Some [(8, 1)]], [(7, 3)], [None]. repeat split; [intros [H | []]; discriminate | left; reflexivity]. Qed.

(** A change of another topic is taken for it: success is reported although nothing was heard of the topic. *)
Theorem C110_other_refuted : exists n count l m, 0 <= n /\ 0 < count /\ add_partition n count l = Some m /\ forall k, ~ seen 7 k l.
Proof. exact added_other. Qed.
Print Assumptions C110_other_refuted.

(** A count of -1 takes one partition off the number in the topic. *)
Theorem C110_negative_refuted : forall n, 0 < n < 2 ^ 32 -> partitions_after n (-1) = n - 1.
Proof. exact removed_number. Qed.
Print Assumptions C110_negative_refuted.
Example C110_negative_example : partitions_after 3 (-1) = 2.
Proof. reflexivity. Qed.
