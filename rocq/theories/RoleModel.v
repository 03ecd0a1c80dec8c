(** The part one storage node (SPU) plays in each partition: what the system
    controller (SC) tells it, which replicas it then leads, follows or removes,
    and which files stay behind.

    Keys of partitions and ids of nodes are numbers.  The model has one SC and
    one node; other nodes only appear as leaders.  A message between them is one
    step (the order of messages on the connection is kept; what the connection
    itself can lose is C45).  Every partition is sent to every node
    (crates/fluvio-sc/src/services/private_api/private_server.rs 430-500 builds
    the message from the changed partitions without looking at their replicas). *)
From Verif Require Import Base.

(** crates/fluvio-controlplane/src/replica.rs 17-28 [Replica]: leader, replicas,
    is_being_deleted; [r_conf] stands for mirror, cleanup_policy, storage,
    compression_type and deduplication.  [r_inc] is not in the code: it numbers
    the topics that have had this name, so that records can be told apart. *)
Record rep := mkRep { r_leader : Z; r_replicas : list Z; r_deleting : bool; r_conf : Z; r_inc : Z }.

(** the derived [PartialEq] of [Replica] (replica.rs 17); [r_inc] does not take part *)
Definition rep_eqb (a b : rep) : bool :=
  (r_leader a =? r_leader b) && (if list_eq_dec Z.eq_dec (r_replicas a) (r_replicas b) then true else false)
  && Bool.eqb (r_deleting a) (r_deleting b) && (r_conf a =? r_conf b).

(** maps as lists of entries (HashMap, BTreeMap) *)
Fixpoint get {A} (m : list (Z * A)) (k : Z) : option A :=
  match m with [] => None | (k', a) :: m' => if k' =? k then Some a else get m' k end.
Definition del {A} (m : list (Z * A)) (k : Z) : list (Z * A) := filter (fun e => negb (fst e =? k)) m.
Definition put {A} (m : list (Z * A)) (k : Z) (a : A) : list (Z * A) := (k, a) :: del m k.
Definition upd {A} (f : Z -> A) (k : Z) (a : A) : Z -> A := fun x => if x =? k then a else f x.

(** ** The node *)

(** crates/fluvio-spu/src/core/global_context.rs [GlobalContext]: replica_localstore,
    leaders_state, followers_state with its groups; the replica directories; the
    [ReplicaRemovedRequest]s sent to the SC and not yet handled there.
    A record is the topic it was written to ([r_inc]) and a value. *)
Record node := mkN {
  n_store : list (Z * rep);
  n_lead : Z -> bool;
  n_follow : list (Z * Z);
  n_groups : Z -> bool;
  n_disk : Z -> option (list (Z * Z));
  n_out : list Z }.

Definition node0 : node := mkN [] (fun _ => false) [] (fun _ => false) (fun _ => None) [].

Definition set_store (n : node) st := mkN st (n_lead n) (n_follow n) (n_groups n) (n_disk n) (n_out n).
Definition set_lead (n : node) k b := mkN (n_store n) (upd (n_lead n) k b) (n_follow n) (n_groups n) (n_disk n) (n_out n).
Definition set_follow (n : node) f := mkN (n_store n) (n_lead n) f (n_groups n) (n_disk n) (n_out n).
Definition set_group (n : node) l b := mkN (n_store n) (n_lead n) (n_follow n) (upd (n_groups n) l b) (n_disk n) (n_out n).
Definition set_disk (n : node) k d := mkN (n_store n) (n_lead n) (n_follow n) (n_groups n) (upd (n_disk n) k d) (n_out n).
Definition set_out (n : node) o := mkN (n_store n) (n_lead n) (n_follow n) (n_groups n) (n_disk n) o.

(** crates/fluvio-storage/src/replica.rs 216-298 [create_or_load_inner]: the
    directory is created unless it exists, in which case its records are loaded *)
Definition opened (d : option (list (Z * Z))) : option (list (Z * Z)) :=
  match d with Some l => Some l | None => Some [] end.

(** crates/fluvio-spu/src/replication/follower/state.rs 114-140 [remove_replica]:
    the group of the leader that was passed is shut down when no replica of that
    leader is left (controller.rs 54-63; [update] 65-73 only wakes it).  The
    result says whether there was a replica. *)
Definition leader_count (f : list (Z * Z)) (l : Z) : Z := zlen (filter (fun e => snd e =? l) f).
Definition unfollow (n : node) (leader k : Z) : node * bool :=
  match get (n_follow n) k with
  | Some _ =>
      let f := del (n_follow n) k in
      let n := set_follow n f in
      (if leader_count f leader =? 0 then set_group n leader false else n, true)
  | None => (n, false)
  end.

(** follower/state.rs 77-108 [add_replica]; controller.rs 30-51 [check_new]:
    nothing happens if there is a follower for the replica already.  [bad] are
    the replicas whose storage cannot be opened; a failed open leaves the disk as
    it was (it may leave an empty directory in the code). *)
Definition add_follower (bad : list Z) (n : node) (k : Z) (r : rep) : node :=
  match get (n_follow n) k with
  | Some _ => n
  | None =>
      if existsb (Z.eqb k) bad then n
      else set_group (set_disk (set_follow n (put (n_follow n) k (r_leader r))) k (opened (n_disk n k))) (r_leader r) true
  end.

(** crates/fluvio-spu/src/replication/leader/leaders_state.rs 115-128
    [add_leader_replica]: opens the storage, then [init] (replica_state.rs 478-),
    which fails if the deduplication module cannot be loaded; on failure nothing
    is entered.  The error is only logged (control_plane/dispatcher.rs 346-348). *)
Definition add_leader (bad : list Z) (n : node) (k : Z) : node :=
  if existsb (Z.eqb k) bad then n else set_lead (set_disk n k (opened (n_disk n k))) k true.

(** global_context.rs 236-270 [promote]; leaders_state.rs 153-167 *)
Definition promote (bad : list Z) (n : node) (k : Z) (old : rep) : node :=
  match unfollow n (r_leader old) k with
  | (n, true) => if existsb (Z.eqb k) bad then n else set_lead n k true
  | (n, false) => n
  end.

(** global_context.rs 400-420 [remove_leader_replica], 428-442
    [remove_follower_replica], 379-393 [remove_replica]; storage/mod.rs 167-173,
    fluvio-storage/src/replica.rs 188-195 (the directory is removed).  The
    removal of the files does not fail in the model.  [delete_consumers_offset]
    is not part of it. *)
Definition remove_replica (me : Z) (n : node) (k : Z) (r : rep) : node :=
  if r_leader r =? me then
    let n := if n_lead n k then set_disk (set_lead n k false) k None else n in
    set_out n (n_out n ++ [k])
  else
    match unfollow n (r_leader r) k with
    | (n, true) => set_disk n k None
    | (n, false) => n
    end.

(** global_context.rs 451-465 [demote_replica] *)
Definition demote (bad : list Z) (n : node) (k : Z) (r : rep) : node :=
  if n_lead n k then add_follower bad (set_lead n k false) k r else n.

(** global_context.rs 475-489 [switch_leader_for_follower]: whether this node has
    one of the replicas is not looked at *)
Definition switch_leader (bad : list Z) (n : node) (k : Z) (new old : rep) : node :=
  add_follower bad (fst (unfollow n (r_leader old) k)) k new.

(** crates/fluvio-spu/src/core/store.rs 32-36 [SpecChange] *)
Inductive action := AAdd (k : Z) (r : rep) | AMod (k : Z) (new old : rep) | ADel (k : Z) (old : rep).
Definition a_key (a : action) : Z := match a with AAdd k _ => k | AMod k _ _ => k | ADel k _ => k end.

(** global_context.rs 287-377 [apply_replica_actions], one action *)
Definition act (me : Z) (bad : list Z) (n : node) (a : action) : node :=
  match a with
  | AAdd k r =>
      if r_deleting r then remove_replica me n k r
      else if r_leader r =? me then add_leader bad n k
      else if existsb (Z.eqb me) (r_replicas r) then add_follower bad n k r else n
  | ADel k r => remove_replica me n k r
  | AMod k new old =>
      if r_deleting new then remove_replica me n k new
      else if negb (r_leader new =? r_leader old) then
        if r_leader new =? me then promote bad n k old
        else if r_leader old =? me then demote bad n k new
        else switch_leader bad n k new old
      else n
  end.

(** ** The node's copy of the metadata *)

(** store.rs 197-245 [apply_changes], one change: [Some r] is UPDATE, [None] DELETE *)
Definition change (st : list (Z * rep)) (k : Z) (c : option rep) : list (Z * rep) * list action :=
  match c, get st k with
  | Some r, Some old => (put st k r, if rep_eqb old r then [] else [AMod k r old])
  | Some r, None => (put st k r, [AAdd k r])
  | None, Some old => (del st k, [ADel k old])
  | None, None => (st, [])
  end.

Fixpoint changes (st : list (Z * rep)) (l : list (Z * option rep)) : list (Z * rep) * list action :=
  match l with
  | [] => (st, [])
  | (k, c) :: l =>
      let '(st, a) := change st k c in
      let '(st, b) := changes st l in (st, a ++ b)
  end.

(** store.rs 143-193 [sync_all]: the entries of the message, then a deletion for
    every key that was there before and is not among them *)
Definition sync_all (st : list (Z * rep)) (all : list (Z * rep)) : list (Z * rep) * list action :=
  changes st (map (fun e => (fst e, Some (snd e))) all ++
              map (fun k => (k, None)) (filter (fun k => negb (existsb (Z.eqb k) (map fst all))) (map fst st))).

(** store.rs 130-138 [apply]: an empty [all] is taken for a list of changes *)
Definition apply_msg (st all : list (Z * rep)) (l : list (Z * option rep)) : list (Z * rep) * list action :=
  match all with [] => changes st l | _ => sync_all st all end.

(** global_context.rs 272-281 [apply_replica_update] *)
Definition update (me : Z) (bad : list Z) (n : node) (all : list (Z * rep)) (l : list (Z * option rep)) : node :=
  let '(st, acts) := apply_msg (n_store n) all l in
  fold_left (act me bad) acts (set_store n st).

(** ** The SC and the node together *)

Record sys := mkS { s_truth : list (Z * rep); s_next : Z; s_node : node }.
Definition sys0 : sys := mkS [] 0 node0.

Inductive event :=
  | Create (k : Z) (leader : Z) (replicas : list Z) (conf : Z)   (* a partition is created *)
  | Lead (k : Z) (leader : Z)           (* another leader is elected *)
  | Conf (k : Z) (conf : Z)             (* another part of its description changes *)
  | Mark (k : Z)                        (* it is marked for deletion (Kubernetes) *)
  | Remove (k : Z)                      (* it is removed from the metadata *)
  | Confirmed                           (* the SC handles the next removal report *)
  | Sync (bad : list Z)                 (* the node gets all partitions *)
  | Told (ks : list Z) (bad : list Z)   (* the node gets what has become of these partitions *)
  | Stop                                (* the node stops and starts again *)
  | Write (k : Z) (x : Z).              (* a record is written to the node's replica *)

(** the changes of a message: updates, then deletions
    (private_server.rs 430-500) *)
Definition updates_of (truth : list (Z * rep)) (ks : list Z) : list (Z * option rep) :=
  flat_map (fun k => match get truth k with Some r => [(k, Some r)] | None => [] end) ks ++
  flat_map (fun k => match get truth k with Some _ => [] | None => [(k, None)] end) ks.

(** private_server.rs 272-298 [receive_replica_remove]: the partition that has
    this key now is deleted ([ReplicaRemovedRequest::new(id, true)] always
    confirms) *)
Definition confirmed (s : sys) : sys :=
  match n_out (s_node s) with
  | [] => s
  | k :: out => mkS (match get (s_truth s) k with Some _ => del (s_truth s) k | None => s_truth s end)
                    (s_next s) (set_out (s_node s) out)
  end.

(** A started node has an empty store, leads and follows nothing and has its
    directories (crates/fluvio-spu/src/start.rs does not look at them); reports
    that were sent are still handled. *)
Definition restarted (n : node) : node := mkN [] (fun _ => false) [] (fun _ => false) (n_disk n) (n_out n).

(** a leader or follower adds to its log; the record is of the topic the node
    knows under this name *)
Definition written (n : node) (k x : Z) : node :=
  if n_lead n k || match get (n_follow n) k with Some _ => true | None => false end then
    match n_disk n k with
    | Some l => set_disk n k (Some (l ++ [(match get (n_store n) k with Some r => r_inc r | None => -1 end, x)]))
    | None => n
    end
  else n.

Definition on_truth (s : sys) (k : Z) (f : rep -> rep) : sys :=
  match get (s_truth s) k with Some r => mkS (put (s_truth s) k (f r)) (s_next s) (s_node s) | None => s end.

Definition on_node (s : sys) (f : node -> node) : sys := mkS (s_truth s) (s_next s) (f (s_node s)).

Definition sstep (me : Z) (s : sys) (e : event) : sys :=
  match e with
  | Create k l rs c =>
      match get (s_truth s) k with
      | Some _ => s
      | None => mkS (put (s_truth s) k (mkRep l rs false c (s_next s))) (s_next s + 1) (s_node s)
      end
  | Lead k l => on_truth s k (fun r => mkRep l (r_replicas r) (r_deleting r) (r_conf r) (r_inc r))
  | Conf k c => on_truth s k (fun r => mkRep (r_leader r) (r_replicas r) (r_deleting r) c (r_inc r))
  | Mark k => on_truth s k (fun r => mkRep (r_leader r) (r_replicas r) true (r_conf r) (r_inc r))
  | Remove k => mkS (del (s_truth s) k) (s_next s) (s_node s)
  | Confirmed => confirmed s
  | Sync bad => on_node s (fun n => update me bad n (s_truth s) [])
  | Told ks bad => on_node s (fun n => update me bad n [] (updates_of (s_truth s) ks))
  | Stop => on_node s restarted
  | Write k x => on_node s (fun n => written n k x)
  end.

Definition srun (me : Z) (s : sys) (es : list event) : sys := fold_left (sstep me) es s.
