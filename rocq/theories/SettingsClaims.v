(** Proofs about the settings of topics. *)
From Coq Require Import ZArith List Bool Lia.
Import ListNotations.
From Verif Require Import WireModel StorageModel StorageSpec SettingsModel SettingsSpec.
Open Scope Z_scope.

Lemma to_u32_fits z : 0 <= z < 2 ^ 32 -> to_u32 z = z.
Proof. intros H. unfold to_u32, wrap_u. apply Z.mod_small. exact H. Qed.

(** * From the request to the storage *)

Lemma new_partition t m have k p : In (k, p) (create_partitions t m have) -> ~ In k (map fst have) ->
  exists rs, In (k, rs) m /\ p = from_replicas rs t.
Proof.
  unfold create_partitions. intros I N. apply in_app_or in I as [I | I].
  - destruct N. apply (in_map fst) in I. exact I.
  - apply in_flat_map in I as ((k', rs) & I1 & I2). cbn [fst snd] in I2. destruct (existsb _ have); [destruct I2|].
    destruct I2 as [E | []]. injection E as E1 E2. subst. exists rs. split; [exact I1 | reflexivity].
Qed.
Lemma every_partition t m have k rs : In (k, rs) m -> ~ In k (map fst have) -> In (k, from_replicas rs t) (create_partitions t m have).
Proof.
  intros I N. unfold create_partitions. apply in_or_app. right. apply in_flat_map. exists (k, rs). split; [exact I|]. cbn [fst snd].
  destruct (existsb _ have) eqn:E; [|left; reflexivity]. apply existsb_exists in E as (h & I2 & E). apply Z.eqb_eq in E. destruct N. rewrite <- E. now apply in_map.
Qed.
Lemma existing_partition t m have k p : In k (map fst have) -> (In (k, p) (create_partitions t m have) <-> In (k, p) have).
Proof.
  intros H. unfold create_partitions. rewrite in_app_iff. split; [|tauto]. intros [I | I]; [exact I|].
  apply in_flat_map in I as ((k', rs) & I1 & I2). cbn [fst snd] in I2. destruct (existsb _ have) eqn:E; [destruct I2|].
  destruct I2 as [X | []]. injection X as X1 X2. subst k'. assert (existsb (fun h => fst h =? k) have = true); [|congruence].
  apply existsb_exists. apply in_map_iff in H as (h & E1 & E2). exists h. split; [exact E2 | rewrite E1; apply Z.eqb_refl].
Qed.

Lemma storage_asked retention segment max rs replicas comp dd sys d : fits retention segment ->
  as_asked retention segment max d
    (update_from_replica (replica_of (from_replicas rs (mkTspec replicas (option_map retention_of retention) (storage_of segment max) comp dd sys))) d).
Proof.
  intros (F1 & F2). unfold as_asked, update_from_replica, replica_of, from_replicas, storage_of, retention_of.
  cbn [r_retention r_store p_retention p_storage t_retention t_storage c_retention c_seg_max c_part_max c_req_max c_interval c_entries].
  destruct retention as [x|], segment as [s|], max as [m|]; cbn [option_map]; rewrite ?to_u32_fits by assumption; repeat split.
Qed.
Lemma flags_stored f m have k p d : fits (f_retention f) (f_segment f) -> In (k, p) (create_partitions (spec_of_flags f) m have) -> ~ In k (map fst have) ->
  as_asked (f_retention f) (f_segment f) (f_max f) d (update_from_replica (replica_of p) d).
Proof. intros F I N. destruct (new_partition _ _ _ _ _ I N) as (rs & _ & ->). now apply storage_asked. Qed.
Lemma file_stored y m have k p d : fits (y_retention y) (y_segment y) -> In (k, p) (create_partitions (spec_of_file y) m have) -> ~ In k (map fst have) ->
  as_asked (y_retention y) (y_segment y) (y_max y) d (update_from_replica (replica_of p) d).
Proof. intros F I N. destruct (new_partition _ _ _ _ _ I N) as (rs & _ & ->). now apply storage_asked. Qed.

Lemma others_stored t m have k p : In (k, p) (create_partitions t m have) -> ~ In k (map fst have) ->
  r_compression (replica_of p) = t_compression t /\ r_dedup (replica_of p) = t_dedup t /\ p_system p = t_system t /\ In (k, p_replicas p) m.
Proof. intros I N. destruct (new_partition _ _ _ _ _ I N) as (rs & I2 & ->). repeat split. exact I2. Qed.
Lemma flags_others f : t_compression (spec_of_flags f) = match f_compression f with Some a => a | None => AnyCompression end /\
  t_dedup (spec_of_flags f) = (if f_dedup f then Some (mkDedup (f_count f) (Some (f_age f)) default_filter []) else None) /\
  t_system (spec_of_flags f) = f_system f /\
  (forall m, f_maps f = Some m -> t_replicas (spec_of_flags f) = Assigned m) /\
  (f_maps f = None -> 0 <= f_replication f < 2 ^ 15 -> t_replicas (spec_of_flags f) = Computed (f_partitions f) (f_replication f) (f_ignore_rack f)).
Proof.
  repeat split; unfold spec_of_flags; cbn [t_replicas].
  - intros m ->. reflexivity.
  - intros -> H. rewrite to_u32_fits by lia. reflexivity.
Qed.

Lemma same_spec f y : same_request f y -> 0 <= f_replication f -> f_replication f < 2 ^ 15 -> spec_of_flags f = spec_of_file y.
Proof.
  intros (E1 & E2 & E3 & E4 & E5 & E6 & E7 & E8 & E9 & E10) L1 L2. unfold spec_of_flags, spec_of_file.
  rewrite E1, E2, E3, E4, E5, E6, E7, E8, E10, to_u32_fits by lia. f_equal. destruct (f_dedup f); symmetry; exact E9.
Qed.

(** * The checks *)

Lemma limits_checked retention segment max replicas comp dd sys : fits retention segment -> match max with Some m => 0 <= m | None => True end ->
  validate_config (mkTspec replicas (option_map retention_of retention) (storage_of segment max) comp dd sys) = None <-> within_limits retention segment max.
Proof.
  intros (F1 & F2) F3. unfold validate_config, within_limits, storage_of, retention_of. cbn [t_retention t_storage].
  change (2 ^ 30) with SPU_LOG_SEGMENT_MAX_BYTES.
  destruct retention as [x|], segment as [s|], max as [m|]; cbn [option_map]; rewrite ?to_u32_fits by assumption;
    unfold STORAGE_RETENTION_SECONDS_MIN, SPU_LOG_LOG_SEGMENT_MAX_BYTE_MIN, SPU_PARTITION_MAX_BYTES_MIN in *;
    repeat match goal with |- context [?a <? ?b] => destruct (Z.ltb_spec a b) end; split; intros; try discriminate; try reflexivity; repeat split; try lia; try tauto.
  all: exfalso; intuition lia.
Qed.
Lemma flags_checked f : fits (f_retention f) (f_segment f) -> match f_max f with Some m => 0 <= m | None => True end ->
  validate_config (spec_of_flags f) = None <-> within_limits (f_retention f) (f_segment f) (f_max f).
Proof. apply limits_checked. Qed.
Lemma file_checked y : fits (y_retention y) (y_segment y) -> match y_max y with Some m => 0 <= m | None => True end ->
  validate_config (spec_of_file y) = None <-> within_limits (y_retention y) (y_segment y) (y_max y).
Proof. apply limits_checked. Qed.

Lemma reasons t e : validate_config t = Some e ->
  match e with
  | ShortRetention => exists r, t_retention t = Some r /\ r < 10
  | SmallSegment => exists s m, t_storage t = Some (Some s, m) /\ s < 1024
  | SmallPartition => exists s m, t_storage t = Some (s, Some m) /\ m < 2048
  | PartitionBelowSegment => exists s m, t_storage t = Some (s, Some m) /\ m < match s with Some s => s | None => 2 ^ 30 end
  end.
Proof.
  unfold validate_config. destruct (t_retention t) as [r|] eqn:R.
  1: destruct (Z.ltb_spec r STORAGE_RETENTION_SECONDS_MIN) as [L|L]; [intros E; injection E as <-; exists r; split; [reflexivity | exact L]|].
  all: destruct (t_storage t) as [[seg mx]|] eqn:S; [|discriminate].
  all: destruct seg as [s|];
    [destruct (Z.ltb_spec s SPU_LOG_LOG_SEGMENT_MAX_BYTE_MIN) as [L2|L2]; [intros E; injection E as <-; exists s, mx; split; [reflexivity | exact L2]|]|].
  all: destruct mx as [m|]; [|discriminate].
  all: destruct (Z.ltb_spec m SPU_PARTITION_MAX_BYTES_MIN) as [L3|L3]; [intros E; injection E as <-; eexists _, m; split; [reflexivity | exact L3]|].
  all: match goal with |- context [?a <? ?b] => destruct (Z.ltb_spec a b) as [L4|L4] end; [|discriminate].
  all: intros E; injection E as <-; eexists _, m; split; [reflexivity | exact L4].
Qed.
Lemma file_taken y : file_accepted y = true <-> forall d, y_dedup y = Some d -> x_count d <> 0.
Proof.
  unfold file_accepted. destruct (y_dedup y) as [d|]; split; intros H; try reflexivity; try discriminate.
  - intros d' E. injection E as <-. apply negb_true_iff, Z.eqb_neq in H. exact H.
  - apply negb_true_iff, Z.eqb_neq, H. reflexivity.
Qed.

Lemma valid_segment t s m : validate_config t = None -> t_storage t = Some (Some s, m) -> 1024 <= s.
Proof.
  unfold validate_config. intros V E. destruct (match t_retention t with Some r => _ | None => false end); [discriminate|]. rewrite E in V.
  unfold SPU_LOG_LOG_SEGMENT_MAX_BYTE_MIN in V. destruct (s <? 1024) eqn:L; [discriminate|]. apply Z.ltb_ge in L. exact L.
Qed.
Lemma valid_retention t r : validate_config t = None -> t_retention t = Some r -> 10 <= r.
Proof.
  unfold validate_config. intros V E. rewrite E in V. unfold STORAGE_RETENTION_SECONDS_MIN in V. destruct (r <? 10) eqn:L; [discriminate|]. apply Z.ltb_ge in L. exact L.
Qed.
Lemma storage_sane t rs d : validate_config t = None -> config_ok d -> (forall s m, t_storage t = Some (Some s, m) -> s < 2 ^ 31) ->
  config_ok (update_from_replica (replica_of (from_replicas rs t)) d).
Proof.
  intros V (C1 & C2 & C3 & C4) S. unfold config_ok, update_from_replica, replica_of, from_replicas.
  cbn [r_retention r_store p_retention p_storage c_retention c_seg_max c_interval c_entries].
  split; [|split; [exact C2|split; [exact C3|]]].
  - destruct (t_storage t) as [[[s|] m]|] eqn:E; try exact C1. pose proof (valid_segment t s m V E). pose proof (S s m eq_refl). lia.
  - destruct (t_retention t) as [r|] eqn:E; [|exact C4]. pose proof (valid_retention t r V E). lia.
Qed.
Lemma room_for_segment t rs : validate_config t = None -> (forall s m, t_storage t = Some (Some s, m) -> s < 2 ^ 32) ->
  let c := update_from_replica (replica_of (from_replicas rs t)) (spu_config SPU_LOG_SEGMENT_MAX_BYTES 4096 1310720) in c_seg_max c <= c_part_max c.
Proof.
  intros V S c. unfold c, update_from_replica, replica_of, from_replicas, spu_config.
  cbn [r_retention r_store p_retention p_storage c_part_max c_seg_max]. unfold validate_config in V.
  destruct (match t_retention t with Some r => _ | None => false end); [discriminate|].
  destruct (t_storage t) as [[seg mx]|] eqn:E; [|unfold SPU_LOG_SEGMENT_MAX_BYTES; lia].
  destruct (match seg with Some s => _ | None => false end); [discriminate|].
  destruct mx as [m|].
  - destruct (m <? SPU_PARTITION_MAX_BYTES_MIN); [discriminate|]. destruct (m <? match seg with Some s => s | None => SPU_LOG_SEGMENT_MAX_BYTES end) eqn:L; [discriminate|].
    apply Z.ltb_ge in L. destruct seg; exact L.
  - destruct seg as [s|]; [pose proof (S s None eq_refl); lia | unfold SPU_LOG_SEGMENT_MAX_BYTES; lia].
Qed.
Lemma shown t rs segment interval entries : shown_retention t = c_retention (update_from_replica (replica_of (from_replicas rs t)) (spu_config segment interval entries)).
Proof. unfold shown_retention, update_from_replica, replica_of, from_replicas, spu_config. cbn. reflexivity. Qed.

(** * The findings *)

Definition plain : flags := mkFlags 1 1 false None None None None None false 5 (mkDur 5 0) false.
Definition with_segment (s : Z) : flags := mkFlags 1 1 false None None (Some s) None None false 5 (mkDur 5 0) false.
Definition with_retention (n : Z) : flags := mkFlags 1 1 false None (Some (mkDur n 0)) None None None false 5 (mkDur 5 0) false.

Lemma segment_wraps f s rs d : f_segment f = Some s -> c_seg_max (update_from_replica (replica_of (from_replicas rs (spec_of_flags f))) d) = s mod 2 ^ 32.
Proof. intros E. unfold update_from_replica, replica_of, from_replicas, spec_of_flags, storage_of. cbn. rewrite E. cbn. destruct (f_max f); reflexivity. Qed.
Lemma segment_too_large : exists f s, f_segment f = Some s /\ s = 5000000000 /\ admitted true [] (fun _ => true) (spec_of_flags f) = true /\
  forall rs d, c_seg_max (update_from_replica (replica_of (from_replicas rs (spec_of_flags f))) d) = 705032704.
Proof. exists (with_segment 5000000000), 5000000000. repeat split. Qed.
Lemma segment_refused : exists f s, f_segment f = Some s /\ s = 2 ^ 32 /\ validate_config (spec_of_flags f) = Some SmallSegment.
Proof. exists (with_segment (2 ^ 32)), (2 ^ 32). repeat split. Qed.
Lemma retention_wraps : exists f x, f_retention f = Some x /\ d_secs x = 2 ^ 32 + 10 /\ admitted true [] (fun _ => true) (spec_of_flags f) = true /\
  forall rs d, c_retention (update_from_replica (replica_of (from_replicas rs (spec_of_flags f))) d) = 10.
Proof. exists (with_retention (2 ^ 32 + 10)), (mkDur (2 ^ 32 + 10) 0). repeat split. Qed.
Lemma never_full : exists f, admitted true [] (fun _ => true) (spec_of_flags f) = true /\ f_segment f = Some (2 ^ 32 - 1) /\
  forall rs d now m b, snd (append_batch (update_from_replica (replica_of (from_replicas rs (spec_of_flags f))) d) now m b) <> Full.
Proof.
  exists (with_segment (2 ^ 32 - 1)). split; [reflexivity|]. split; [reflexivity|]. intros rs d now m b.
  set (c := update_from_replica _ d). assert (C : c_seg_max c = 2 ^ 32 - 1) by reflexivity. clearbody c.
  unfold append_batch. destruct (records_len b =? 0); [discriminate|]. destruct (_ <? m_base m); [discriminate|].
  destruct (c_seg_max c <? _) eqn:L.
  - apply Z.ltb_lt in L. rewrite C in L. unfold wrap_u in L at 1. pose proof (Z.mod_pos_bound (wrap_u 32 (batch_size raw_codec (with_base b (m_end m))) + zlen (m_log m)) (2 ^ 32) ltac:(lia)). lia.
  - destruct (_ =? _); [|discriminate]. destruct (write_index _ _ _ _ _); discriminate.
Qed.
Lemma negative_replication : exists f, f_replication f = -1 /\ admitted true [] (fun _ => true) (spec_of_flags f) = true /\
  t_replicas (spec_of_flags f) = Computed 1 4294967295 false.
Proof. exists (mkFlags 1 (-1) false None None None None None false 5 (mkDur 5 0) false). repeat split. Qed.
Lemma zero_count : exists f, f_dedup f = true /\ f_count f = 0 /\ admitted true [default_filter] (fun _ => true) (spec_of_flags f) = true /\
  forall y, same_request f y -> file_accepted y = false.
Proof.
  exists (mkFlags 1 1 false None None None None None true 0 (mkDur 5 0) false). repeat split.
  intros y (_ & _ & _ & _ & _ & _ & _ & _ & E & _). cbn in E. unfold file_accepted. rewrite E. reflexivity.
Qed.

(** * Creating *)

Lemma dry_run admit key t topics : fst (create admit true key t topics) = topics /\ snd (create admit true key t topics) = snd (create admit false key t topics).
Proof. unfold create. destruct (admit t && _); split; reflexivity. Qed.
Lemma created admit key t topics topics' : create admit false key t topics = (topics', true) ->
  admit t = true /\ ~ In key (map fst topics) /\ topics' = topics ++ [(key, t)].
Proof.
  unfold create. destruct (admit t); [|discriminate]. destruct (existsb _ topics) eqn:E; [discriminate|]. intros H. injection H as <-. split; [reflexivity|]. split; [|reflexivity].
  intros I. apply in_map_iff in I as (e & E1 & I). assert (existsb (fun e => fst e =? key) topics = true); [|congruence]. apply existsb_exists. exists e. split; [exact I|]. rewrite E1. apply Z.eqb_refl.
Qed.
Lemma not_created admit dry key t topics topics' : create admit dry key t topics = (topics', false) -> topics' = topics /\ (admit t = false \/ In key (map fst topics)).
Proof.
  unfold create. destruct (admit t); [|intros H; injection H as <-; auto]. destruct (existsb _ topics) eqn:E; [|discriminate]. intros H. injection H as <-. split; [reflexivity|]. right.
  apply existsb_exists in E as (e & I & E). apply Z.eqb_eq in E. rewrite <- E. now apply in_map.
Qed.
Lemma admitted_exactly named modules mapped t : admitted named modules mapped t = true <->
  named = true /\ validate_config t = None /\ (forall d, t_dedup t = Some d -> In (x_uses d) modules) /\
  match t_replicas t with Assigned m => mapped m = true | Computed p f _ => p <> 0 /\ f <> 0 end.
Proof.
  unfold admitted. rewrite !andb_true_iff. split.
  - intros (((A & B) & C) & D). split; [exact A|]. split; [destruct (validate_config t); [discriminate | reflexivity]|]. split.
    + intros d E. rewrite E in C. apply existsb_exists in C as (x & I & E2). apply Z.eqb_eq in E2. rewrite E2. exact I.
    + destruct (t_replicas t) as [m | p f i]; [exact D|]. cbn in D. apply andb_true_iff in D as (D1 & D2). apply negb_true_iff in D1, D2. apply Z.eqb_neq in D1, D2. now split.
  - intros (A & B & C & D). rewrite B. repeat split; [exact A| |].
    + destruct (t_dedup t) as [d|]; [|reflexivity]. apply existsb_exists. exists (x_uses d). split; [now apply C | apply Z.eqb_refl].
    + destruct (t_replicas t) as [m | p f i]; [exact D|]. cbn. destruct D as (D1 & D2). apply Z.eqb_neq in D1, D2. now rewrite D1, D2.
Qed.

(** * Deduplication *)

Lemma get_insert k k' v m : get k (insert k' v m) = if k =? k' then Some v else get k m.
Proof.
  unfold insert. cbn [get]. destruct (k =? k') eqn:E; [reflexivity|]. apply Z.eqb_neq in E.
  induction m as [|(k2, v2) m IH]; [reflexivity|]. cbn [filter fst get]. destruct (k' =? k2) eqn:E2; cbn [negb].
  - apply Z.eqb_eq in E2. subst k2. destruct (k =? k') eqn:E3; [apply Z.eqb_eq in E3; congruence | exact IH].
  - cbn [get]. now rewrite IH.
Qed.
Lemma get_with k l : forall m, get k (fold_left (fun m e => insert (fst e) (snd e) m) l m) = last_for k l (get k m).
Proof. induction l as [|(k', v) l IH]; intros m; [reflexivity|]. cbn [fold_left last_for fst snd]. now rewrite IH, get_insert. Qed.
Lemma dedup_told d : let i := dedup_to_invocation d in
  i_module i = x_uses d /\ i_last i = x_count d /\ i_age i = x_age d /\
  forall k, get k (i_params i) = last_for k (x_with d)
    (if k =? p_count then Some (x_count d) else if k =? p_age then option_map as_millis (x_age d) else None).
Proof.
  cbv zeta. repeat split. intros k. unfold dedup_to_invocation. cbn [i_params]. rewrite get_with. f_equal.
  destruct (x_age d) as [a|]; rewrite ?get_insert; cbn [get option_map].
  - destruct (k =? p_age) eqn:A; destruct (k =? p_count) eqn:C; try reflexivity. apply Z.eqb_eq in A, C. subst. discriminate.
  - destruct (k =? p_count); [reflexivity|]. destruct (k =? p_age); reflexivity.
Qed.
Lemma untouched k l v : ~ In k (map fst l) -> last_for k l v = v.
Proof.
  revert v. induction l as [|(k', v') l IH]; intros v N; [reflexivity|]. cbn [map fst last_for] in *. destruct (k =? k') eqn:E; [apply Z.eqb_eq in E; destruct N; left; congruence|].
  apply IH. intros I. apply N. right. exact I.
Qed.
Lemma dedup_bounds d : ~ In p_count (map fst (x_with d)) -> ~ In p_age (map fst (x_with d)) ->
  get p_count (i_params (dedup_to_invocation d)) = Some (x_count d) /\ get p_age (i_params (dedup_to_invocation d)) = option_map as_millis (x_age d).
Proof.
  intros N1 N2. destruct (dedup_told d) as (_ & _ & _ & P). rewrite !P, !untouched by assumption. split; reflexivity.
Qed.
Lemma dedup_overridden : exists d n, x_count d = 5 /\ i_last (dedup_to_invocation d) = 5 /\ get p_count (i_params (dedup_to_invocation d)) = Some n /\ n = 100.
Proof. exists (mkDedup 5 None default_filter [(p_count, 100)]), 100. repeat split. Qed.
Lemma dedup_short_age : exists d, x_age d = Some (mkDur 0 999999) /\ get p_age (i_params (dedup_to_invocation d)) = Some 0.
Proof. exists (mkDedup 5 (Some (mkDur 0 999999)) default_filter []). repeat split. Qed.

(** * Adding partitions *)

Lemma added_number n count : 0 <= n -> 0 <= count -> n + count < 2 ^ 32 -> partitions_after n count = n + count.
Proof. intros A B C. unfold partitions_after. rewrite (to_u32_fits count) by lia. unfold wrap_u. apply Z.mod_small. lia. Qed.
Lemma removed_number n : 0 < n < 2 ^ 32 -> partitions_after n (-1) = n - 1.
Proof.
  intros H. unfold partitions_after, to_u32, wrap_u. change (-1 mod 2 ^ 32) with (2 ^ 32 - 1). replace (n + (2 ^ 32 - 1)) with (n - 1 + 1 * 2 ^ 32) by lia.
  rewrite Z.mod_add by lia. apply Z.mod_small. lia.
Qed.
Lemma wrap64 n count : 0 <= n -> 0 <= count -> n + count < 2 ^ 32 -> wrap_u 64 (n + wrap_u 64 count) = n + count.
Proof. intros. unfold wrap_u. rewrite (Z.mod_small count) by lia. apply Z.mod_small. lia. Qed.
Lemma added_own topic n count l m : 0 <= n -> 0 <= count -> n + count < 2 ^ 32 -> only_about topic l -> add_partition n count l = Some m ->
  m = n + count /\ seen topic (n + count) l.
Proof.
  intros H1 H2 H3. induction l as [|[cs|] l IH]; intros O E; cbn [add_partition] in E; try discriminate. rewrite wrap64 in E by assumption.
  destruct (find _ cs) as [c|] eqn:F.
  - injection E as <-. apply find_some in F as (I & E). apply Z.eqb_eq in E. split; [exact E|]. exists [], cs, l. split; [reflexivity|]. split; [intros []|].
    assert (T : fst c = topic) by (apply (O cs c); [left; reflexivity | exact I]). rewrite <- T, <- E. destruct c; exact I.
  - destruct IH as (A & b & cs2 & a & B & C & D); [intros x c I; apply O; right; exact I | exact E |]. split; [exact A|]. exists (Some cs :: b), cs2, a. rewrite B.
    split; [reflexivity|]. split; [|exact D]. intros [X | X]; [discriminate | exact (C X)].
Qed.
Lemma added_seen topic n count l : 0 <= n -> 0 <= count -> n + count < 2 ^ 32 -> seen topic (n + count) l -> add_partition n count l = Some (n + count).
Proof.
  intros H1 H2 H3 (b & cs & a & -> & N & I). induction b as [|x b IH].
  - cbn [app add_partition]. rewrite wrap64 by assumption. destruct (find _ cs) as [c|] eqn:F.
    + apply find_some in F as (_ & E). apply Z.eqb_eq in E. now rewrite E.
    + pose proof (find_none _ _ F _ I) as E. cbn [snd] in E. rewrite Z.eqb_refl in E. discriminate.
  - destruct x as [cs2|]; [|destruct N; left; reflexivity]. cbn [app add_partition]. rewrite wrap64 by assumption. destruct (find _ cs2) as [c|] eqn:F.
    + apply find_some in F as (_ & E). apply Z.eqb_eq in E. now rewrite E.
    + rewrite <- wrap64 in IH by assumption. rewrite wrap64 in IH by assumption. apply IH. intros X. apply N. right. exact X.
Qed.
Lemma added_other : exists n count l m, 0 <= n /\ 0 < count /\ add_partition n count l = Some m /\ forall k, ~ seen 7 k l.
Proof.
  exists 2, 1, [Some [(8, 3)]], 3. repeat split; try lia. intros k (b & cs & a & E & _ & I). destruct b as [|x [|y b]]; [|discriminate|discriminate].
  injection E as E1 E2. subst cs. destruct I as [I | []]. discriminate.
Qed.
