(** Model of the controller: replica scheduling, leader election, validation of
    manual assignments and the topic state machine.  No proofs here. *)
From Verif Require Import Base.

(** ** Scheduling *)

(** crates/fluvio-controlplane-metadata/src/partition/spec.rs [PartitionSpec]: only the leader
    and the replica list; mirror, storage, compression and dedup settings are dropped. *)
Record pspec := { ps_leader : Z; ps_replicas : list Z }.

(** crates/fluvio-sc/src/stores/partition/store.rs:184-206 [PartitionCountSpu] and the
    [HashMap] around it (82-103).  A missing entry reads as (0,0), as in [find_suitable_spu]
    (122-130) and [increase_*] (141-159), so the map is a total function. *)
Record groups := { g_leaders : Z -> Z; g_followers : Z -> Z }.
Definition no_groups : groups := {| g_leaders := fun _ => 0; g_followers := fun _ => 0 |}.

(** crates/fluvio-sc/src/stores/partition/store.rs:141-149 [increase_leaders]: u16 addition,
    wrapping in a release build (a debug build panics at 65535). *)
Definition increase_leaders (g : groups) (spu : Z) : groups :=
  {| g_leaders := fun s => if s =? spu then wrap_u 16 (g_leaders g s + 1) else g_leaders g s;
     g_followers := g_followers g |}.

(** crates/fluvio-sc/src/stores/partition/store.rs:151-159 [increase_followers]. *)
Definition increase_followers (g : groups) (spu : Z) : groups :=
  {| g_leaders := g_leaders g;
     g_followers := fun s => if s =? spu then wrap_u 16 (g_followers g s + 1) else g_followers g s |}.

(** crates/fluvio-sc/src/stores/partition/store.rs:328-342 [group_by_spu], one partition *)
Definition count_partition (g : groups) (p : pspec) : groups :=
  fold_left (fun g s => if s =? ps_leader p then g else increase_followers g s)
            (ps_replicas p) (increase_leaders g (ps_leader p)).

(** crates/fluvio-sc/src/stores/partition/store.rs:328-342 [group_by_spu] *)
Definition group_by_spu (parts : list pspec) : groups := fold_left count_partition parts no_groups.

Definition zmem (x : Z) (l : list Z) : bool := existsb (Z.eqb x) l.

(** crates/fluvio-sc/src/stores/partition/store.rs:108-139 [find_suitable_spu]; [w] is the
    weight picked by [SpuWeightSelection].  The running minimum starts at [u16::MAX]. *)
Definition suitable_step (w : Z -> Z) (anti : list Z) (acc : option Z * Z) (s : Z) : option Z * Z :=
  if zmem s anti then acc
  else if w s <? snd acc then (Some s, w s) else acc.
Definition find_suitable_spu (w : Z -> Z) (spus anti : list Z) : option Z :=
  fst (fold_left (suitable_step w anti) spus (None, 65535)).

(** insertion sort; stands for [sort_unstable] on integers, where every sorting algorithm
    returns the same list *)
Fixpoint insert_sorted (x : Z) (l : list Z) : list Z :=
  match l with
  | [] => [x]
  | y :: t => if x <=? y then x :: l else y :: insert_sorted x t
  end.
Definition sort (l : list Z) : list Z := fold_right insert_sorted [] l.

(** A server as seen by the scheduler: id and whether its status is online. *)
Definition spu := (Z * bool)%type.
(** crates/fluvio-sc/src/stores/spu/store.rs:123-130 [online_spu_ids] *)
Definition online_ids (spus : list spu) : list Z := map fst (filter snd spus).
(** crates/fluvio-sc/src/stores/spu/store.rs:132-140 [spu_ids] *)
Definition spu_ids (spus : list spu) : list Z := map fst spus.

(** crates/fluvio-types/src/lib.rs:17 [ReplicaMap], a BTreeMap: a list of entries with
    increasing keys. *)
Definition rmap := list (Z * list Z).
Fixpoint mget (i : Z) (m : rmap) : option (list Z) :=
  match m with
  | [] => None
  | (j, r) :: t => if i =? j then Some r else mget i t
  end.
(** BTreeMap::insert *)
Fixpoint minsert (i : Z) (r : list Z) (m : rmap) : rmap :=
  match m with
  | [] => [(i, r)]
  | (j, q) :: t => if i <? j then (i, r) :: m else if i =? j then (i, r) :: t
                   else (j, q) :: minsert i r t
  end.

(** crates/fluvio-sc/src/controllers/scheduler/partition.rs:141-163, the replicas of one
    partition: [n] replicas still to place, [reserved] already placed.  [None] is the early
    return with an empty map. *)
Fixpoint place_replicas (n : nat) (online reserved : list Z) (g : groups)
  : option (list Z * groups) :=
  match n with
  | O => Some (reserved, g)
  | S n' =>
    let first := match reserved with [] => true | _ => false end in
    match find_suitable_spu (if first then g_leaders g else g_followers g) online reserved with
    | Some s => place_replicas n' online (reserved ++ [s])
                  (if first then increase_leaders g s else increase_followers g s)
    | None => None
    end
  end.

(** crates/fluvio-sc/src/controllers/scheduler/partition.rs:133-139: the placement that is
    kept because it has the requested number of replicas *)
Definition kept (old : rmap) (rf : Z) (i : Z) : option (list Z) :=
  match mget i old with
  | Some rs => if zlen rs =? rf then Some rs else None
  | None => None
  end.

(** crates/fluvio-sc/src/controllers/scheduler/partition.rs:119-168
    [generate_partitions_without_rack]: [n] partitions still to do from index [i].  The entries
    are inserted with increasing keys, so the map is the list of entries in order. *)
Fixpoint gen_partitions (n : nat) (i : Z) (online : list Z) (rf : Z) (old : rmap) (g : groups)
  : option (rmap * groups) :=
  match n with
  | O => Some ([], g)
  | S n' =>
    match kept old rf i with
    | Some rs =>
      match gen_partitions n' (i + 1) online rf old g with
      | Some (m, g') => Some ((i, rs) :: m, g')
      | None => None
      end
    | None =>
      match place_replicas (Z.to_nat rf) online [] g with
      | Some (rs, g1) =>
        match gen_partitions n' (i + 1) online rf old g1 with
        | Some (m, g') => Some ((i, rs) :: m, g')
        | None => None
        end
      | None => None
      end
    end
  end.

(** crates/fluvio-sc/src/controllers/scheduler/partition.rs:85-98 [init] and 100-116
    [generate_replica_map_for_topic].  [parts] are all partitions in the store.  The rack
    parameter is not used by this code. *)
Definition generate_replica_map (spus : list spu) (parts : list pspec) (count rf : Z) (old : rmap)
  : rmap :=
  if wrap_u 32 (zlen spus) <? rf then []
  else match gen_partitions (Z.to_nat count) 0 (sort (online_ids spus)) rf old (group_by_spu parts) with
       | Some (m, _) => m
       | None => []
       end.

(** ** Leader election *)

(** crates/fluvio-controlplane-metadata/src/partition/status.rs [ReplicaStatus] *)
Record rstatus := { r_spu : Z; r_hw : Z; r_leo : Z }.

Inductive presolution := POffline | POnline | PLeaderOffline | PElectionLeaderFound | POutOfStorage.

(** crates/fluvio-controlplane-metadata/src/partition/status.rs [PartitionStatus]: the size, the
    base offset and the deletion flag are dropped. *)
Record pstatus := { st_res : presolution; st_leader : rstatus; st_lsr : Z; st_replicas : list rstatus }.

(** crates/fluvio-sc/src/stores/partition/policy.rs:34-46 [SimplePolicy::potential_leader_score]:
    [None] is [NotSuitable]; the subtraction is i64, the cast is [as u16]. *)
Definition leader_score (candidate leader : rstatus) : option Z :=
  let lag := wrap_s 64 (r_leo leader - r_leo candidate) in
  if lag <? 4 then Some (wrap_u 16 lag) else None.

(** crates/fluvio-sc/src/stores/partition/store.rs:361-386 [candidate_leader] *)
Definition candidate_step (online : Z -> bool) (leader : rstatus) (acc : option (Z * Z)) (c : rstatus)
  : option (Z * Z) :=
  if online (r_spu c) then
    match leader_score c leader with
    | Some score =>
      match acc with
      | Some (_, best) => if score <? best then Some (r_spu c, score) else acc
      | None => Some (r_spu c, score)
      end
    | None => acc
    end
  else acc.
Definition candidate_leader (online : Z -> bool) (s : pstatus) : option Z :=
  option_map fst (fold_left (candidate_step online (st_leader s)) (st_replicas s) None).

(** crates/fluvio-sc/src/stores/partition/store.rs:438-466 [ReplicaStatus::merge]: the new value
    and the returned old one *)
Definition rs_merge (self source : rstatus) : rstatus * option rstatus :=
  if r_spu source =? -1 then (self, None)
  else if (r_spu self =? -1) || (r_spu self =? r_spu source) then
    ({| r_spu := r_spu source;
        r_hw := if r_hw source =? -1 then r_hw self else r_hw source;
        r_leo := if r_leo source =? -1 then r_leo self else r_leo source |}, None)
  else (source, Some self).

(** crates/fluvio-sc/src/stores/partition/store.rs:397-403, one follower of the report:
    [find_status] (346) picks the first status with that server id *)
Fixpoint merge_follower (l : list rstatus) (s : rstatus) : list rstatus :=
  match l with
  | [] => [s]
  | x :: t => if r_spu x =? r_spu s then fst (rs_merge x s) :: t else x :: merge_follower t s
  end.

(** crates/fluvio-sc/src/stores/partition/store.rs:390-428 [merge] and [update_lrs] *)
Definition ps_merge (self other : pstatus) : pstatus :=
  let '(leader, old) := rs_merge (st_leader self) (st_leader other) in
  let rs0 := match old with Some o => st_replicas self ++ [o] | None => st_replicas self end in
  let rs1 := fold_left merge_follower (st_replicas other) rs0 in
  let rs2 := filter (fun s => negb (r_spu s =? r_spu leader)) rs1 in
  {| st_res := st_res other; st_leader := leader;
     st_lsr := wrap_u 32 (zlen (filter (fun s => negb (r_leo s =? -1) && (r_leo leader =? r_leo s)) rs2));
     st_replicas := rs2 |}.

(** A partition in the controller's store. *)
Record partition := { pt_key : Z; pt_spec : pspec; pt_status : pstatus }.

(** crates/fluvio-stream-dispatcher/src/actions.rs: the two actions of an election *)
Inductive eaction :=
| UpdateSpec (key : Z) (s : pspec)
| UpdateStatus (key : Z) (s : pstatus).

Definition set_leader (p : pspec) (l : Z) : pspec := {| ps_leader := l; ps_replicas := ps_replicas p |}.
Definition set_resolution (s : pstatus) (r : presolution) : pstatus :=
  {| st_res := r; st_leader := st_leader s; st_lsr := st_lsr s; st_replicas := st_replicas s |}.

(** crates/fluvio-controlplane-metadata/src/partition/status.rs [is_online], [is_readable] *)
Definition is_online (s : pstatus) : bool := match st_res s with POnline => true | _ => false end.
Definition is_readable (s : pstatus) : bool :=
  match st_res s with POnline | POutOfStorage => true | _ => false end.

(** crates/fluvio-sc/src/controllers/partitions/reducer.rs:137-201 [force_election_spu_off],
    one partition *)
Definition elect_off (online : Z -> bool) (off : Z) (p : partition) : list eaction :=
  if ps_leader (pt_spec p) =? off then
    match candidate_leader online (pt_status p) with
    | Some c => [UpdateSpec (pt_key p) (set_leader (pt_spec p) c)]
    | None => if is_online (pt_status p)
              then [UpdateStatus (pt_key p) (set_resolution (pt_status p) PLeaderOffline)] else []
    end
  else [].

(** crates/fluvio-sc/src/controllers/partitions/reducer.rs:205-258 [force_election_spu_on],
    one partition *)
Definition elect_on (on : Z) (p : partition) : list eaction :=
  if is_readable (pt_status p) then []
  else if ps_leader (pt_spec p) =? on
  then [UpdateStatus (pt_key p) (set_resolution (pt_status p) POnline)]
  else flat_map (fun r => if (r_spu r =? on) &&
                             match leader_score r (st_leader (pt_status p)) with Some _ => true | None => false end
                          then [UpdateSpec (pt_key p) (set_leader (pt_spec p) on)] else [])
                (st_replicas (pt_status p)).

(** crates/fluvio-sc/src/controllers/partitions/reducer.rs:109-133
    [update_election_from_spu_changes]: [changed] lists the changed servers (init ones already
    removed), [online] is the online set read from the store. *)
Definition update_election (online : Z -> bool) (changed : list spu) (parts : list partition)
  : list eaction :=
  flat_map (fun s => flat_map (elect_off online (fst s)) parts) (filter (fun s => negb (snd s)) changed)
  ++ flat_map (fun s => flat_map (elect_on (fst s)) parts) (filter snd changed).

(** ** Manual assignments *)

(** crates/fluvio-controlplane-metadata/src/topic/spec.rs [PartitionMap]: id and replicas *)
Definition pmap := (Z * list Z)%type.

(** [windows(2)] with unequal elements, topic/spec.rs:553-556 *)
Fixpoint adjacent_unequal (l : list Z) : Z :=
  match l with
  | x :: ((y :: _) as t) => (if x =? y then 0 else 1) + adjacent_unequal t
  | _ => 0
  end.

(** crates/fluvio-controlplane-metadata/src/topic/spec.rs:525-577, the loop.  [false] is any of
    the errors; the counter is u32 (wrapping in release builds). *)
Fixpoint validate_loop (l : list pmap) (id len : Z) : bool :=
  match l with
  | [] => true
  | (pid, rs) :: t =>
    if negb (pid =? id) then false
    else if (id =? 0) && (zlen rs =? 0) then false
    else if negb (id =? 0) && negb (zlen rs =? len) then false
    else if negb (zlen rs =? 1 + adjacent_unequal (sort rs)) then false
    else if existsb (fun s => s <? 0) rs then false
    else validate_loop t (wrap_u 32 (id + 1)) (if id =? 0 then zlen rs else len)
  end.
(** crates/fluvio-controlplane-metadata/src/topic/spec.rs:509-580 [PartitionMaps::validate] *)
Definition validate_maps (l : list pmap) : bool :=
  match l with [] => false | _ => validate_loop l 0 0 end.

(** ** Topic state machine *)

Inductive tresolution := TInit | TPending | TInsufficient | TInvalid | TProvisioned | TDeleting.
(** the reason string: empty, the pending text, or an error text *)
Inductive treason := NoReason | PendingReason | ErrorReason.

(** crates/fluvio-controlplane-metadata/src/topic/spec.rs [ReplicaSpec].  A mirror topic is
    represented by its partition count and the verdict of [MirrorConfig::validate]; its mirror
    map is not modelled. *)
Inductive rspec :=
| Computed (count rf : Z)
| Assigned (maps : list pmap)
| Mirror (count : Z) (valid : bool).

(** crates/fluvio-controlplane-metadata/src/topic/spec.rs:250-256 [partitions] *)
Definition spec_partitions (r : rspec) : Z :=
  match r with Computed c _ => c | Assigned m => wrap_u 32 (zlen m) | Mirror c _ => c end.

Record topic := {
  t_spec : rspec; t_deleted : bool;          (** deletion requested on the object *)
  t_res : tresolution; t_reason : treason; t_map : rmap }.

(** crates/fluvio-sc/src/controllers/topics/policy.rs:104-115 [TopicNextState]; the partitions
    to create are (index, spec) *)
Record next_state := {
  n_res : tresolution; n_reason : treason; n_map : rmap; n_parts : list (Z * pspec) }.

Definition next (r : tresolution) (w : treason) : next_state :=
  {| n_res := r; n_reason := w; n_map := []; n_parts := [] |}.

(** crates/fluvio-controlplane-metadata/src/topic/status.rs [next_resolution_pending],
    [next_resolution_invalid_config] *)
Definition next_pending := next TPending PendingReason.
Definition next_invalid := next TInvalid ErrorReason.

(** crates/fluvio-sc/src/controllers/topics/policy.rs:46-56 *)
Definition validate_computed (count rf : Z) : next_state :=
  if count =? 0 then next_invalid else if rf =? 0 then next_invalid else next_pending.
(** crates/fluvio-sc/src/controllers/topics/policy.rs:32-40 *)
Definition validate_assigned (m : list pmap) : next_state :=
  if validate_maps m then next_pending else next_invalid.
(** crates/fluvio-sc/src/controllers/topics/policy.rs:62-71 *)
Definition validate_mirror (valid : bool) : next_state :=
  if valid then next_pending else next_invalid.

(** crates/fluvio-sc/src/controllers/scheduler/partition.rs:41-50 *)
Definition map_of_assigned (l : list pmap) : rmap :=
  fold_left (fun m e => minsert (fst e) (snd e) m) l [].

(** crates/fluvio-sc/src/controllers/topics/policy.rs:78-103
    [update_replica_map_for_assigned_topic]; going over the unique ids or over all ids gives the
    same answer *)
Definition update_assigned (l : list pmap) (spus : list spu) : next_state :=
  if forallb (fun e => forallb (fun s => zmem s (spu_ids spus)) (snd e)) l then
    match map_of_assigned l with
    | [] => next_invalid
    | m => {| n_res := TProvisioned; n_reason := NoReason; n_map := m; n_parts := [] |}
    end
  else next_invalid.

(** crates/fluvio-controlplane-metadata/src/partition/spec.rs:48-65 [from_replicas] *)
Definition from_replicas (rs : list Z) : pspec := {| ps_leader := hd 0 rs; ps_replicas := rs |}.

(** crates/fluvio-sc/src/stores/topic/store.rs:34-60 [create_new_partitions]; [store] holds the
    partitions of this topic by index *)
Definition has_partition (store : list (Z * pspec)) (i : Z) : bool := existsb (fun e => fst e =? i) store.
Definition create_new_partitions (t : topic) (store : list (Z * pspec)) : list (Z * pspec) :=
  map (fun e => (fst e, from_replicas (snd e)))
      (filter (fun e => negb (has_partition store (fst e))) (t_map t)).

(** crates/fluvio-sc/src/controllers/topics/policy.rs:173-178 [same_next_state] and the
    catch-all branches 212-226, 243-255, 325-340 *)
Definition keep_state (t : topic) (store : list (Z * pspec)) : next_state :=
  {| n_res := t_res t; n_reason := NoReason; n_map := [];
     n_parts := match t_res t with TProvisioned => create_new_partitions t store | _ => [] end |}.

Definition scheduled (m : rmap) : next_state :=
  match m with
  | [] => next TInsufficient NoReason
  | _ => {| n_res := TProvisioned; n_reason := NoReason; n_map := m; n_parts := [] |}
  end.

Record cluster := {
  c_spus : list spu;
  c_others : list pspec;             (** partitions of the other topics *)
  c_store : list (Z * pspec) }.      (** partitions of this topic, by index *)

Definition all_parts (c : cluster) : list pspec := c_others c ++ map snd (c_store c).

(** crates/fluvio-sc/src/controllers/topics/policy.rs:181-345 [compute_next_state] *)
Definition compute_next_state (t : topic) (c : cluster) : next_state :=
  match t_spec t with
  | Computed count rf =>
    match t_res t with
    | TInit | TInvalid => validate_computed count rf
    | TPending | TInsufficient =>
      scheduled (generate_replica_map (c_spus c) (all_parts c) count rf (t_map t))
    | _ => keep_state t (c_store c)
    end
  | Assigned maps =>
    match t_res t with
    | TInit | TInvalid => validate_assigned maps
    | TPending | TInsufficient =>
      let n := update_assigned maps (c_spus c) in
      match n_res n with
      | TProvisioned => {| n_res := n_res n; n_reason := n_reason n; n_map := n_map n;
                           n_parts := create_new_partitions t (c_store c) |}
      | _ => n
      end
    | _ => keep_state t (c_store c)
    end
  | Mirror count valid =>
    match t_res t with
    | TInit | TInvalid => validate_mirror valid
    | TPending | TInsufficient =>
      scheduled (generate_replica_map (c_spus c) (all_parts c) count 1 (t_map t))
    | _ => keep_state t (c_store c)
    end
  end.

(** crates/fluvio-sc/src/controllers/topics/policy.rs:160-170 [apply_as_next_state], the status *)
Definition apply_next (t : topic) (n : next_state) : topic :=
  {| t_spec := t_spec t; t_deleted := t_deleted t; t_res := n_res n; t_reason := n_reason n;
     t_map := match n_map n with [] => t_map t | m => m end |}.

Definition with_res (t : topic) (r : tresolution) : topic :=
  {| t_spec := t_spec t; t_deleted := t_deleted t; t_res := r; t_reason := t_reason t; t_map := t_map t |}.

Definition tres_eqb (a b : tresolution) : bool :=
  match a, b with
  | TInit, TInit | TPending, TPending | TInsufficient, TInsufficient | TInvalid, TInvalid
  | TProvisioned, TProvisioned | TDeleting, TDeleting => true
  | _, _ => false
  end.
Definition treason_eqb (a b : treason) : bool :=
  match a, b with
  | NoReason, NoReason | PendingReason, PendingReason | ErrorReason, ErrorReason => true
  | _, _ => false
  end.

(** What one controller pass asks for: a new status of the topic, partitions to create, and
    whether the topic's partitions are deleted. *)
Record tactions := { a_topic : option topic; a_create : list (Z * pspec); a_delete : bool }.

(** crates/fluvio-sc/src/controllers/topics/reducer.rs:102-197 [update_actions_next_state] *)
Definition topic_pass (t : topic) (c : cluster) : tactions :=
  if t_deleted t then
    match t_res t with
    | TDeleting => {| a_topic := None; a_create := []; a_delete := false |}
    | _ => {| a_topic := Some (with_res t TDeleting); a_create := []; a_delete := true |}
    end
  else if tres_eqb (t_res t) TProvisioned && (wrap_u 32 (zlen (t_map t)) <? spec_partitions (t_spec t))
  then {| a_topic := Some (with_res t TPending); a_create := []; a_delete := false |}
  else
    let n := compute_next_state t c in
    let t' := apply_next t n in
    {| a_topic := if tres_eqb (t_res t') (t_res t) && treason_eqb (t_reason t') (t_reason t)
                  then None else Some t';
       a_create := n_parts n; a_delete := false |}.

(** The store applies the actions: a status replaces the old one, [Apply] stores a partition. *)
Definition apply_actions (s : topic * cluster) (a : tactions) : topic * cluster :=
  let '(t, c) := s in
  (match a_topic a with Some t' => t' | None => t end,
   {| c_spus := c_spus c; c_others := c_others c;
      c_store := (if a_delete a then [] else c_store c) ++ a_create a |}).

(** crates/fluvio-sc/src/services/public_api/topic/update/add_partition.rs:20-75
    [handle_add_partition]: u32 addition (wrapping in release), computed topics only *)
Definition add_partitions (t : topic) (n : Z) : topic :=
  match t_spec t with
  | Computed count rf =>
    {| t_spec := Computed (wrap_u 32 (count + n)) rf; t_deleted := t_deleted t;
       t_res := t_res t; t_reason := t_reason t; t_map := t_map t |}
  | _ => t
  end.

(** Everything that can happen to a topic: a controller pass, servers coming, going or changing,
    partitions of other topics changing, a request to add partitions, a request to delete. *)
Inductive tevent :=
| Pass
| Servers (l : list spu)
| OtherPartitions (l : list pspec)
| AddPartitions (n : Z)
| DeleteTopic.

Definition tstep (s : topic * cluster) (e : tevent) : topic * cluster :=
  let '(t, c) := s in
  match e with
  | Pass => apply_actions s (topic_pass t c)
  | Servers l => (t, {| c_spus := l; c_others := c_others c; c_store := c_store c |})
  | OtherPartitions l => (t, {| c_spus := c_spus c; c_others := l; c_store := c_store c |})
  | AddPartitions n => (add_partitions t n, c)
  | DeleteTopic => ({| t_spec := t_spec t; t_deleted := true; t_res := t_res t;
                       t_reason := t_reason t; t_map := t_map t |}, c)
  end.
Definition trun (es : list tevent) (s : topic * cluster) : topic * cluster := fold_left tstep es s.

(** a freshly created topic *)
Definition new_topic (r : rspec) : topic :=
  {| t_spec := r; t_deleted := false; t_res := TInit; t_reason := NoReason; t_map := [] |}.
