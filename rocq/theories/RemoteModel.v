(** Remote clusters that follow their home: the system controller (SC) of a
    remote cluster connects to the SC of its home, is sent the topics the home
    mirrors with it, and creates, changes and deletes topics of its own
    accordingly.
    Source: crates/fluvio-sc/src/services/public_api/mirroring/connect.rs (the
    home), crates/fluvio-sc/src/controllers/mirroring/controller.rs (the remote),
    and of crates/fluvio-sc/src/controllers/topics what makes partitions of a
    topic.  The records themselves are MirrorModel's subject.

    Simplifications, for the whole file:
    - stores are lists of which the first entry of a key counts; a cluster has
      one home, and of several registered ones the first is taken;
    - cleanup policies, storage settings, deduplication and compression are
      numbers; sleeps, the status of mirrors and TLS are left out;
    - the connection goes to the one home of this model. *)
From Verif Require Import Base.
Require Import List. Import ListNotations.

Definition name := bytes.
Definition name_eq (a b : name) : {a = b} + {a <> b} := list_eq_dec Z.eq_dec a b.
Definition same (a b : name) : bool := if name_eq a b then true else false.

Fixpoint get {A} (k : name) (l : list (name * A)) : option A :=
  match l with [] => None | (x, v) :: t => if same x k then Some v else get k t end.
Fixpoint put {A} (k : name) (v : A) (l : list (name * A)) : list (name * A) :=
  match l with
  | [] => [(k, v)]
  | (x, w) :: t => if same x k then (k, v) :: t else (x, w) :: put k v t
  end.
Definition del {A} (k : name) (l : list (name * A)) : list (name * A) := filter (fun e => negb (same (fst e) k)) l.

(** * Topics *)

(** SpuMirrorConfig, topic/spec.rs:898-902; of an SPU what is sent *)
Record spu := mkSpu { s_id : Z; s_key : name; s_addr : name }.
Record settings := mkSettings { e_cleanup : option Z; e_storage : option Z; e_compression : Z; e_dedup : option Z }.
(** ReplicaSpec, topic/spec.rs:198-212; [HomeMirrorInner], used in 704-706, with the remote
    cluster of each partition; [RemoteMirrorConfig] 883-890.  What a topic that
    is no mirror says is a number, with its number of partitions. *)
Inductive replicas :=
  | ROrdinary (what : Z) (parts : Z)
  | RHome (parts : list name) (source : bool)
  | RRemote (spus : list spu) (home : name) (target : bool).
(** TopicSpec, topic/spec.rs:24-42 *)
Record tspec := mkSpec { sp_replicas : replicas; sp_settings : settings; sp_system : bool }.
(** RemotePartitionConfig, partition/spec.rs:233-245 *)
Record link := mkLink { l_spu : spu; l_home : name; l_target : bool }.
(** A topic with its status: whether it is provisioned, its replica map and its
    mirror map. *)
Record topic := mkTopic { t_spec : tspec; t_ready : bool; t_map : list (Z * list Z); t_links : list (Z * link) }.
Definition fresh (s : tspec) : topic := mkTopic s false [] [].

Definition spu_eq (a b : spu) : {a = b} + {a <> b}.
Proof. decide equality; apply name_eq || apply Z.eq_dec. Defined.
Definition opt_eq (a b : option Z) : {a = b} + {a <> b}.
Proof. decide equality; apply Z.eq_dec. Defined.
Definition settings_eq (a b : settings) : {a = b} + {a <> b}.
Proof. decide equality; apply opt_eq || apply Z.eq_dec. Defined.
Definition replicas_eq (a b : replicas) : {a = b} + {a <> b}.
Proof. decide equality; try apply Bool.bool_dec; try apply Z.eq_dec; try apply name_eq; apply list_eq_dec; apply name_eq || apply spu_eq. Defined.
(** [PartialEq for TopicSpec] *)
Definition spec_eq (a b : tspec) : {a = b} + {a <> b}.
Proof. decide equality; [apply Bool.bool_dec | apply settings_eq | apply replicas_eq]. Defined.

(** * The home *)

(** Home, mirror/spec.rs:74-80 *)
Record registration := mkReg { g_id : name; g_remote : name }.
(** MirrorType, mirror/spec.rs:33-40 *)
Inductive mirror := MRemote (id : name) | MHome (g : registration).
(** The stores of the home; [h_changed] says that its topics or SPUs have changed
    since it was started. *)
Record home := mkHome { h_topics : list (name * topic); h_spus : list spu; h_mirrors : list (name * mirror); h_changed : bool }.

(** [Iterator::position] *)
Fixpoint position (r : name) (l : list name) (i : Z) : option Z :=
  match l with [] => None | x :: t => if same x r then Some i else position r t (i + 1) end.
Definition at_index (l : list (Z * list Z)) (i : Z) : option (list Z) :=
  match find (fun e => fst e =? i) l with Some e => Some (snd e) | None => None end.

(** MirroringSpecWrapper, mirroring/mod.rs:100-106 *)
Record wrapper := mkWrapper { w_key : name; w_spec : tspec; w_spu : spu }.
(** [sync_and_send_topics], connect.rs:182-221, for one topic *)
Definition export (spus : list spu) (r : name) (e : name * topic) : option wrapper :=
  match sp_replicas (t_spec (snd e)) with
  | RHome parts _ =>
      match position r parts 0 with
      | Some i =>
          match at_index (t_map (snd e)) i with
          | Some (id :: _) =>
              match find (fun s => s_id s =? id) spus with
              | Some s => Some (mkWrapper (fst e) (t_spec (snd e)) s)
              | None => None
              end
          | _ => None
          end
      | None => None
      end
  | _ => None
  end.
Fixpoint keep {A B} (f : A -> option B) (l : list A) : list B :=
  match l with [] => [] | x :: t => match f x with Some y => y :: keep f t | None => keep f t end end.
Definition exports (h : home) (r : name) : list wrapper := keep (export (h_spus h) r) (h_topics h).

(** [get_remote_mirror], connect.rs:146-165 *)
Definition registered (h : home) (r : name) : bool :=
  match get r (h_mirrors h) with Some (MRemote id) => same id r | _ => false end.

(** * The remote *)

(** The stores of the remote.  Of partitions their mirror only. *)
Record remote := mkRemote { r_topics : list (name * topic); r_parts : list ((name * Z) * option link); r_mirrors : list (name * mirror) }.
(** [get_mirror_home_cluster], controller.rs:176-183 *)
Fixpoint first_home (l : list (name * mirror)) : option registration :=
  match l with [] => None | (_, MHome g) :: _ => Some g | _ :: t => first_home t end.
Definition home_of (r : remote) : option registration := first_home (r_mirrors r).

Definition set_topics (r : remote) (l : list (name * topic)) : remote := mkRemote l (r_parts r) (r_mirrors r).
(** The topics of a home, controller.rs:187-203 *)
Definition mirrors_of (id : name) (t : topic) : bool :=
  match sp_replicas (t_spec t) with RRemote _ h _ => same h id | _ => false end.
Definition mine (id : name) (r : remote) : list name :=
  map fst (filter (fun e => mirrors_of id (snd e)) (r_topics r)).

(** What the handling of one message consists of, in order (controller.rs:83-94):
    the topics to delete are read at the beginning. *)
Inductive task := TDelete (k : name) | TSync (w : wrapper).
Definition listed (k : name) (m : list wrapper) : bool := existsb (fun w => same (w_key w) k) m.
Definition plan (id : name) (r : remote) (m : list wrapper) : list task :=
  map TDelete (filter (fun k => negb (listed k m)) (mine id r)) ++ map TSync m.

(** Deleting a topic deletes its partitions (C61, C82). *)
Definition remove (k : name) (r : remote) : remote :=
  mkRemote (del k (r_topics r)) (filter (fun p => negb (same (fst (fst p)) k)) (r_parts r)) (r_mirrors r).
(** controller.rs:262-272 *)
Definition or_else (a b : option Z) : option Z := match a with Some _ => a | None => b end.
Definition override (home_s mine_s : settings) : settings :=
  mkSettings (or_else (e_cleanup home_s) (e_cleanup mine_s)) (or_else (e_storage home_s) (e_storage mine_s))
             (e_compression home_s) (e_dedup home_s).
(** [sync_topic], controller.rs:216-279, in one step; [None] is the error of a
    topic that is no home mirror.  [create_spec] of a topic that exists changes
    its spec and leaves its status (dispatcher/metadata.rs:202-208). *)
Definition sync_topic (id : name) (w : wrapper) (r : remote) : option remote :=
  match sp_replicas (w_spec w) with
  | RHome _ source =>
      let new := RRemote [w_spu w] id source in
      match get (w_key w) (r_topics r) with
      | Some t =>
          let s := mkSpec new (sp_settings (t_spec t)) (sp_system (t_spec t)) in
          if spec_eq s (t_spec t) then Some r
          else Some (set_topics r (put (w_key w)
            (mkTopic (mkSpec new (override (sp_settings (w_spec w)) (sp_settings (t_spec t))) (sp_system (t_spec t)))
                     (t_ready t) (t_map t) (t_links t)) (r_topics r)))
      | None =>
          Some (set_topics r (put (w_key w)
            (fresh (mkSpec new (override (sp_settings (w_spec w)) (sp_settings (w_spec w))) (sp_system (w_spec w)))) (r_topics r)))
      end
  | _ => None
  end.
Definition execute (id : name) (t : task) (r : remote) : option remote :=
  match t with TDelete k => Some (remove k r) | TSync w => sync_topic id w r end.

(** * Partitions of the topics *)

(** [ReplicaSpec::partitions], topic/spec.rs:250-256 *)
Definition part_count (x : replicas) : Z :=
  match x with ROrdinary _ n => n | RHome l _ => zlen l | RRemote l _ _ => zlen l end.
Fixpoint numbered (spus : list spu) (h : name) (target : bool) (i : Z) : list (Z * link) :=
  match spus with [] => [] | s :: t => (i, mkLink s h target) :: numbered t h target (i + 1) end.
(** The mirror map of a topic, policy.rs:288-314.  A home's own part is left out. *)
Definition links_of (x : replicas) : list (Z * link) :=
  match x with RRemote spus h target => numbered spus h target 0 | _ => [] end.
Definition link_at (l : list (Z * link)) (i : Z) : option link :=
  match find (fun e => fst e =? i) l with Some e => Some (snd e) | None => None end.
Definition has_part (k : name) (i : Z) (l : list ((name * Z) * option link)) : bool :=
  existsb (fun p => same (fst (fst p)) k && (snd (fst p) =? i)) l.
(** [create_new_partitions], stores/topic/store.rs:34-62 *)
Definition new_parts (k : name) (t : topic) (l : list ((name * Z) * option link)) : list ((name * Z) * option link) :=
  keep (fun e => if has_part k (fst e) l then None else Some ((k, fst e), link_at (t_links t) (fst e))) (t_map t).
(** [update_actions_next_state], controllers/topics/reducer.rs:147-162 and
    [compute_next_state], policy.rs:180-345: a topic is provisioned with a replica
    map ([assigned], from the scheduler), then gets the partitions it lacks.  The
    steps before it is provisioned are one here. *)
Definition reconcile (k : name) (assigned : list (Z * list Z)) (r : remote) : remote :=
  match get k (r_topics r) with
  | None => r
  | Some t =>
      if t_ready t then
        if part_count (sp_replicas (t_spec t)) >? zlen (t_map t)
        then set_topics r (put k (mkTopic (t_spec t) false (t_map t) (t_links t)) (r_topics r))
        else mkRemote (r_topics r) (r_parts r ++ new_parts k t (r_parts r)) (r_mirrors r)
      else set_topics r (put k (mkTopic (t_spec t) true (match assigned with [] => t_map t | _ => assigned end)
                                        (match links_of (sp_replicas (t_spec t)) with [] => t_links t | l => l end)) (r_topics r))
  end.

(** * Both, and the connection between them *)

(** A connection of the remote: the registration it was opened with, whether the
    home still serves it, and the messages under way. *)
Record conn := mkConn { c_reg : registration; c_served : bool; c_queue : list (list wrapper) }.
(** [y_work]: the tasks that are left of the message being handled; [y_done] counts
    the messages that were handled completely. *)
Record sys := mkSys { y_home : home; y_remote : remote; y_conn : option conn; y_work : option (registration * list task); y_done : Z }.

(** A store operation is done; or not, and reported as failed; or reported as
    failed (timed out) and done nevertheless. *)
Inductive outcome := Done | Lost | Late.
Inductive move :=
  | HomeDoes (h : home)                         (* anything at the home *)
  | RemoteDoes (r : remote)                     (* anything at the remote *)
  | Reconcile (k : name) (assigned : list (Z * list Z))
  | Connect (allowed : option bool)             (* what the home's authorization says; None: an error *)
  | Send (ok : bool)                            (* whether the home could note that it was sent *)
  | Cut
  | Take
  | Work (o : outcome).

(** [dispatch_loop] of the home up to its loop, connect.rs:59-88: a remote that is
    not registered, or not authorized, is not served; the connection stays *)
Definition accepts (h : home) (r : name) (allowed : option bool) : bool :=
  registered h r && match allowed with Some false => false | _ => true end.

Definition step (s : sys) (m : move) : option sys :=
  match m with
  | HomeDoes h => Some (mkSys h (y_remote s) (y_conn s) (y_work s) (y_done s))
  | RemoteDoes r => Some (mkSys (y_home s) r (y_conn s) (y_work s) (y_done s))
  | Reconcile k a => Some (mkSys (y_home s) (reconcile k a (y_remote s)) (y_conn s) (y_work s) (y_done s))
  | Connect allowed =>                          (* controller.rs:71-74, 116-147 *)
      match y_conn s, y_work s, home_of (y_remote s) with
      | None, None, Some g =>
          Some (mkSys (y_home s) (y_remote s) (Some (mkConn g (accepts (y_home s) (g_remote g) allowed) [])) None (y_done s))
      | _, _, _ => None
      end
  | Send ok =>                                  (* connect.rs:100-143, 168-249 *)
      match y_conn s with
      | Some (mkConn g true q) =>
          if negb (h_changed (y_home s)) then Some s
          else match get (g_remote g) (h_mirrors (y_home s)) with
               | Some _ => Some (mkSys (y_home s) (y_remote s)
                             (Some (mkConn g ok (q ++ [exports (y_home s) (g_remote g)]))) (y_work s) (y_done s))
               | None => Some (mkSys (y_home s) (y_remote s) (Some (mkConn g false q)) (y_work s) (y_done s))
               end
      | _ => None
      end
  | Cut => Some (mkSys (y_home s) (y_remote s) None (y_work s) (y_done s))
  | Take =>                                     (* controller.rs:78-89, 187-203 *)
      match y_conn s, y_work s with
      | Some (mkConn g b (msg :: q)), None =>
          Some (mkSys (y_home s) (y_remote s) (Some (mkConn g b q)) (Some (g, plan (g_id g) (y_remote s) msg)) (y_done s))
      | _, _ => None
      end
  | Work o =>                                   (* controller.rs:89-97, 52-63 *)
      match y_work s with
      | None => None
      | Some (_, []) =>                         (* [update_status], 282-295, needs a home *)
          match o, home_of (y_remote s) with
          | Done, Some _ => Some (mkSys (y_home s) (y_remote s) (y_conn s) None (y_done s + 1))
          | _, _ => Some (mkSys (y_home s) (y_remote s) None None (y_done s))
          end
      | Some (g, t :: rest) =>
          match o, execute (g_id g) t (y_remote s) with
          | Done, Some r => Some (mkSys (y_home s) r (y_conn s) (Some (g, rest)) (y_done s))
          | Late, Some r => Some (mkSys (y_home s) r None None (y_done s))
          | _, _ => Some (mkSys (y_home s) (y_remote s) None None (y_done s))
          end
      end
  end.
Fixpoint run (s : sys) (l : list move) : option sys :=
  match l with [] => Some s | m :: t => match step s m with Some s' => run s' t | None => None end end.
