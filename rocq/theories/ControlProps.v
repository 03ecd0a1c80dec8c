(** The controller properties. *)
From Verif Require Import Base.
From Verif Require Import ControlModel ControlSpec ControlProofs TopicProofs ControlClaims.

(** ** C28 *)

(** The elected server is an online replica with a lag below 4, and when no replica is ahead of
    the leader it is one with the smallest lag. *)
Theorem C28_elected : forall online s c,
  sane s -> candidate_leader online s = Some c ->
  exists r, eligible online s r /\ r_spu r = c /\
    ((forall r', In r' (st_replicas s) -> r_leo r' <= r_leo (st_leader s)) ->
     forall r', eligible online s r' -> lag (st_leader s) r <= lag (st_leader s) r').
Proof. exact elected. Qed.
Print Assumptions C28_elected.

(** No server is elected exactly when no replica is eligible. *)
Theorem C28_nobody : forall online s, sane s ->
  (candidate_leader online s = None <-> forall r, ~ eligible online s r).
Proof. exact not_elected. Qed.
Print Assumptions C28_nobody.

(** If the status is consistent the elected server has every committed record. *)
Theorem C28_committed : forall online s c,
  sane s -> consistent s -> candidate_leader online s = Some c ->
  exists r, eligible online s r /\ r_spu r = c /\ r_hw (st_leader s) <= r_leo r.
Proof. exact elected_committed. Qed.
Print Assumptions C28_committed.

(** After any history of reports whose last one is complete, the election is safe. *)
Theorem C28_after_reports : forall online rs o s c,
  let s' := fold_left ps_merge (rs ++ [o]) s in
  unique_servers s -> complete_report (servers (fold_left ps_merge rs s)) o -> sane s' ->
  candidate_leader online s' = Some c ->
  exists r, In r (st_replicas s') /\ r_spu r = c /\ online c = true /\ r_hw (st_leader s') <= r_leo r.
Proof. exact after_reports. Qed.
Print Assumptions C28_after_reports.

(** Every leader change the controller asks for, on any change of servers, names a replica with
    a lag below 4 that is online. *)
Theorem C28_actions : forall online changed parts k sp,
  (forall p, In p parts -> sane (pt_status p)) ->
  In (UpdateSpec k sp) (update_election online changed parts) ->
  exists p r, In p parts /\ pt_key p = k /\ ps_replicas sp = ps_replicas (pt_spec p) /\
    In r (st_replicas (pt_status p)) /\ r_spu r = ps_leader sp /\
    lag (st_leader (pt_status p)) r < 4 /\
    (online (ps_leader sp) = true \/ In (ps_leader sp, true) changed).
Proof. exact elections. Qed.
Print Assumptions C28_actions.

(** A replica that is ahead of the last report of the leader loses to one that lags behind. *)
Theorem C28_ahead_refuted : exists online s r c,
  sane s /\ consistent s /\ eligible online s r /\ candidate_leader online s = Some c /\ r_spu r <> c /\
  forall r', In r' (st_replicas s) -> r_spu r' = c -> lag (st_leader s) r < lag (st_leader s) r'.
Proof. exact ahead_loses. Qed.
Print Assumptions C28_ahead_refuted.

(** The election itself never looks at the committed offset. *)
Theorem C28_committed_refuted : exists online s c,
  sane s /\ candidate_leader online s = Some c /\
  forall r, In r (st_replicas s) -> r_spu r = c -> r_leo r < r_hw (st_leader s).
Proof. exact committed_unchecked. Qed.
Print Assumptions C28_committed_refuted.

(** A consistent status becomes unsafe by one report with an unknown follower position. *)
Theorem C28_unknown_position_refuted : exists online s o c,
  unique_servers s /\ consistent s /\ sane (ps_merge s o) /\
  candidate_leader online (ps_merge s o) = Some c /\
  forall r, In r (st_replicas (ps_merge s o)) -> r_spu r = c -> r_leo r < r_hw (st_leader (ps_merge s o)).
Proof. exact stale_report. Qed.
Print Assumptions C28_unknown_position_refuted.

Definition ex_report : pstatus :=
  {| st_res := POnline; st_leader := {| r_spu := 0; r_hw := 8; r_leo := 10 |}; st_lsr := 0;
     st_replicas := [{| r_spu := 1; r_hw := 8; r_leo := 8 |}; {| r_spu := 2; r_hw := 8; r_leo := 9 |}] |}.
Definition ex_status : pstatus :=
  {| st_res := POnline; st_leader := {| r_spu := 0; r_hw := 2; r_leo := 3 |}; st_lsr := 0;
     st_replicas := [{| r_spu := 1; r_hw := 2; r_leo := 2 |}; {| r_spu := 2; r_hw := -1; r_leo := -1 |}] |}.
Example C28_example :
  unique_servers ex_status /\ complete_report (servers ex_status) ex_report /\
  sane (ps_merge ex_status ex_report) /\
  candidate_leader (fun s => negb (s =? 0)) (ps_merge ex_status ex_report) = Some 2.
Proof.
  split; [repeat constructor; cbn; intuition lia|]. split.
  - unfold complete_report. cbn. split; [lia|]. split; [lia|]. split; [repeat constructor; cbn; intuition lia|].
    split; [repeat constructor; cbn; lia|]. intros x X. exact X.
  - split; [split; [cbn; lia | repeat constructor; cbn; lia] | reflexivity].
Qed.

(** ** C29 *)

(** A placement is either absent or complete and valid. *)
Theorem C29_valid : forall spus parts count rf old,
  0 <= rf ->
  generate_replica_map spus parts count rf old = [] \/
  valid_placement (online_ids spus) count rf old (generate_replica_map spus parts count rf old).
Proof. exact generate_valid. Qed.
Print Assumptions C29_valid.

(** It is absent exactly when there are too few servers, or some partition has to be placed and
    too few of them are online. *)
Theorem C29_exactly_when_possible : forall spus parts count rf old,
  0 < count -> 0 < rf -> NoDup (spu_ids spus) -> zlen spus < 2 ^ 32 ->
  light_load parts (online_ids spus) count ->
  (generate_replica_map spus parts count rf old = [] <->
   zlen spus < rf \/
   (zlen (online_ids spus) < rf /\ exists i, 0 <= i < count /\ forall rs, ~ already_placed old rf i rs)).
Proof. exact generate_iff. Qed.
Print Assumptions C29_exactly_when_possible.

(** The load limit is real: a server leading 65535 partitions gets no more. *)
Theorem C29_full_server_refuted : exists parts count,
  0 < count /\ leader_count parts 5 = 65535 /\ generate_replica_map [(5, true)] parts count 1 [] = [].
Proof. exact full_server. Qed.
Print Assumptions C29_full_server_refuted.

Definition ex_spus : list spu := [(3, true); (1, true); (7, false); (2, true)].
Definition ex_parts : list pspec := [from_replicas [1; 2]; from_replicas [1; 3]].
Example C29_example :
  NoDup (spu_ids ex_spus) /\ light_load ex_parts (online_ids ex_spus) 3 /\
  generate_replica_map ex_spus ex_parts 3 2 [(1, [7; 1])] = [(0, [2; 1]); (1, [7; 1]); (2, [3; 1])].
Proof.
  split; [repeat constructor; cbn; intuition lia|]. split; [|reflexivity].
  intros s [<-|[<-|[<-|[]]]]; vm_compute; auto.
Qed.

(** ** C30 *)

(** Each new leader goes to an online server with the fewest leaders at that moment. *)
Theorem C30_fewest : forall spus parts count rf old m1 j rs m2,
  0 < rf -> 0 <= count -> light_load parts (online_ids spus) count ->
  generate_replica_map spus parts count rf old = m1 ++ (j, rs) :: m2 ->
  (forall rs', ~ already_placed old rf j rs') ->
  In (hd 0 rs) (online_ids spus) /\
  forall t, In t (online_ids spus) ->
    leader_count parts (hd 0 rs) + new_leaders old rf m1 (hd 0 rs)
    <= leader_count parts t + new_leaders old rf m1 t.
Proof. exact generate_fewest. Qed.
Print Assumptions C30_fewest.

(** Balanced before a topic is placed implies balanced after its partitions are created. *)
Theorem C30_balanced : forall spus parts count rf,
  0 < rf -> 0 <= count -> light_load parts (online_ids spus) count ->
  (forall a b, In a (online_ids spus) -> In b (online_ids spus) ->
     leader_count parts a <= leader_count parts b + 1) ->
  let created := map (fun e => from_replicas (snd e)) (generate_replica_map spus parts count rf []) in
  forall a b, In a (online_ids spus) -> In b (online_ids spus) ->
    leader_count (parts ++ created) a <= leader_count (parts ++ created) b + 1.
Proof. exact balanced_fresh. Qed.
Print Assumptions C30_balanced.

(** The same when partitions are added to a topic. *)
Theorem C30_balanced_growth : forall spus parts count rf old,
  0 < rf -> 0 <= count -> light_load parts (online_ids spus) count ->
  (forall a b, In a (online_ids spus) -> In b (online_ids spus) ->
     leader_count parts a <= leader_count parts b + 1) ->
  let m := generate_replica_map spus parts count rf old in
  forall a b, In a (online_ids spus) -> In b (online_ids spus) ->
    leader_count parts a + new_leaders old rf m a <= leader_count parts b + new_leaders old rf m b + 1.
Proof. exact generate_balanced. Qed.
Print Assumptions C30_balanced_growth.

(** Two topics placed before the partitions of the first one exist land on the same server. *)
Theorem C30_two_topics_refuted :
  exists spus, (forall s, In s [0; 1] -> In s (online_ids spus)) /\
    let m1 := generate_replica_map spus [] 1 1 [] in
    let m2 := generate_replica_map spus [] 1 1 [] in
    let created := map (fun e => from_replicas (snd e)) (m1 ++ m2) in
    leader_count created 0 = 2 /\ leader_count created 1 = 0.
Proof. exact two_topics. Qed.
Print Assumptions C30_two_topics_refuted.

Example C30_example :
  light_load [] (online_ids ex_spus) 4 /\
  generate_replica_map ex_spus [] 4 2 [] = [(0, [1; 2]); (1, [2; 1]); (2, [3; 1]); (3, [1; 3])] /\
  map (leader_count (map (fun e => from_replicas (snd e)) (generate_replica_map ex_spus [] 4 2 []))) [1; 2; 3]
  = [2; 1; 1].
Proof.
  split; [|split; reflexivity]. intros s [<-|[<-|[<-|[]]]]; vm_compute; auto.
Qed.

(** ** C31 *)
Theorem C31_accepted_iff_well_formed : forall l,
  zlen l < 2 ^ 32 -> (validate_maps l = true <-> assignment_ok l).
Proof. exact validate_spec. Qed.
Print Assumptions C31_accepted_iff_well_formed.

Example C31_example :
  assignment_ok [(0, [2; 1]); (1, [1; 3])] /\ validate_maps [(0, [2; 1]); (1, [1; 3])] = true /\
  validate_maps [(0, [2; 1]); (1, [3; 3])] = false.
Proof.
  split; [|split; reflexivity].
  assert (H : validate_maps [(0, [2; 1]); (1, [1; 3])] = true) by reflexivity.
  apply validate_spec in H; [exact H | reflexivity].
Qed.

(** ** C32 *)

(** Two passes provision a valid topic, the third creates its partitions, further passes change
    nothing. *)
Theorem C32_provisioned : forall count rf c n,
  valid_spec (Computed count rf) -> c_store c = [] -> enough_servers c count rf ->
  exists m c',
    valid_placement (online_ids (c_spus c)) count rf [] m /\
    trun (passes 2) (new_topic (Computed count rf), c) =
      (mk (new_topic (Computed count rf)) TProvisioned NoReason m, c) /\
    trun (passes (3 + n)) (new_topic (Computed count rf), c) =
      (mk (new_topic (Computed count rf)) TProvisioned NoReason m, c') /\
    all_created (mk (new_topic (Computed count rf)) TProvisioned NoReason m) c'.
Proof. exact computed_provisions. Qed.
Print Assumptions C32_provisioned.

(** The same for a manual assignment on existing servers. *)
Theorem C32_assigned_provisioned : forall maps c,
  assignment_ok maps -> zlen maps < 2 ^ 32 -> known_servers maps c -> c_store c = [] ->
  exists c', trun (passes 3) (new_topic (Assigned maps), c) =
    (mk (new_topic (Assigned maps)) TProvisioned NoReason maps, c') /\
    all_created (mk (new_topic (Assigned maps)) TProvisioned NoReason maps) c'.
Proof. exact assigned_provisions. Qed.
Print Assumptions C32_assigned_provisioned.

(** A topic that waits for servers is provisioned by the first pass that finds enough. *)
Theorem C32_recovers : forall t c count rf,
  t_spec t = Computed count rf -> 0 < count -> 0 < rf -> t_deleted t = false ->
  t_res t = TPending \/ t_res t = TInsufficient -> enough_servers c count rf ->
  t_res (fst (trun [Pass] (t, c))) = TProvisioned.
Proof. exact waiting_recovers. Qed.
Print Assumptions C32_recovers.

(** Adding partitions keeps every existing placement and creates the new partitions. *)
Theorem C32_grows : forall count rf m c k n,
  0 < count -> 0 < rf < 2 ^ 32 -> 0 < k -> count + k < 2 ^ 32 -> zlen m = count ->
  agree (mk (new_topic (Computed count rf)) TProvisioned NoReason m) c ->
  Forall (fun e => zlen (snd e) = rf) m -> map fst m = indices count ->
  incl (map fst (c_store c)) (map fst m) ->
  enough_servers c (count + k) rf ->
  exists m' c',
    valid_placement (online_ids (c_spus c)) (count + k) rf m m' /\
    (forall i rs, In (i, rs) m -> In (i, rs) m') /\
    trun (AddPartitions k :: passes (3 + n)) (mk (new_topic (Computed count rf)) TProvisioned NoReason m, c) =
      (mk (new_topic (Computed (count + k) rf)) TProvisioned NoReason m', c') /\
    all_created (mk (new_topic (Computed (count + k) rf)) TProvisioned NoReason m') c'.
Proof. exact computed_grows. Qed.
Print Assumptions C32_grows.

(** Whatever happens later, a placement once recorded never changes. *)
Theorem C32_keeps : forall r c es1 es2 i rs,
  spec_range r -> adds_ok (es1 ++ es2) r ->
  mget i (t_map (fst (trun es1 (new_topic r, c)))) = Some rs ->
  mget i (t_map (fst (trun (es1 ++ es2) (new_topic r, c)))) = Some rs.
Proof. exact topics_keep. Qed.
Print Assumptions C32_keeps.

(** A provisioned topic stays provisioned whatever happens to servers and other topics. *)
Theorem C32_stays : forall t es c,
  t_deleted t = false -> t_res t = TProvisioned -> t_reason t = NoReason ->
  spec_partitions (t_spec t) <= wrap_u 32 (zlen (t_map t)) -> Forall no_request es ->
  fst (trun es (t, c)) = t /\ incl (c_store c) (c_store (snd (trun es (t, c)))).
Proof. exact stays. Qed.
Print Assumptions C32_stays.

(** An invalid topic is never provisioned, placed or given partitions. *)
Theorem C32_invalid_never : forall r c es,
  spec_range r -> adds_ok es r ->
  ~ valid_spec (t_spec (fst (trun es (new_topic r, c)))) ->
  t_res (fst (trun es (new_topic r, c))) <> TProvisioned /\
  t_map (fst (trun es (new_topic r, c))) = [] /\
  incl (c_store (snd (trun es (new_topic r, c)))) (c_store c).
Proof. exact invalid_never. Qed.
Print Assumptions C32_invalid_never.

(** A well-formed assignment naming an unknown server never settles: its status alternates
    between pending and invalid at every pass. *)
Theorem C32_unknown_server_never_settles : forall maps c,
  assignment_ok maps -> zlen maps < 2 ^ 32 -> ~ known_servers maps c -> forall n,
  (let s := trun (passes (1 + 2 * n)) (new_topic (Assigned maps), c) in
     t_res (fst s) = TPending /\ c_store (snd s) = c_store c) /\
  (let s := trun (passes (2 + 2 * n)) (new_topic (Assigned maps), c) in
     t_res (fst s) = TInvalid /\ c_store (snd s) = c_store c).
Proof. exact unknown_toggles. Qed.
Print Assumptions C32_unknown_server_never_settles.

(** Deletion: after the pass that follows the request no partition of the topic is left, and
    none comes back whatever happens then. *)
Theorem C32_deleted_gone : forall r c es1 es2,
  c_store (snd (trun (es1 ++ DeleteTopic :: Pass :: es2) (new_topic r, c))) = [].
Proof. exact deleted_gone. Qed.
Print Assumptions C32_deleted_gone.

Definition ex_cluster : cluster := {| c_spus := ex_spus; c_others := ex_parts; c_store := [] |}.
Example C32_example :
  valid_spec (Computed 3 2) /\ enough_servers ex_cluster 3 2 /\
  t_map (fst (trun (passes 2 ++ [AddPartitions 1] ++ passes 3) (new_topic (Computed 3 2), ex_cluster)))
  = [(0, [2; 1]); (1, [3; 1]); (2, [2; 3]); (3, [2; 1])] /\
  ~ valid_spec (Computed 0 2) /\ ~ known_servers [(0, [9])] ex_cluster.
Proof.
  split; [cbn; lia|]. split.
  - split; [repeat constructor; cbn; intuition lia|]. split; [cbn; lia|]. split; [cbn; lia|].
    intros s [<-|[<-|[<-|[]]]]; vm_compute; auto.
  - split; [reflexivity|]. split; [cbn; lia|]. intros F. apply Forall_inv in F.
    specialize (F 9 (or_introl eq_refl)). cbn in F. intuition lia.
Qed.
