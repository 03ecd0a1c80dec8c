(** Who may do what at the system controller (SC): the three kinds of
    authorization, the policy file, and the handlers of the public API with the
    place where each of them asks.

    Text is a list of byte values; ':' is 58.  [handle] serves one request
    after the other; the tasks of the SC that act on the stores in between
    (C32, C60) are not in this model. *)
From Coq Require Import String Ascii.
From Verif Require Import Base NameModel PackageModel.

Definition lit (s : string) : bytes := map (fun a => Z.of_nat (nat_of_ascii a)) (list_ascii_of_string s).

(** crates/fluvio-controlplane-metadata/src/lib.rs 31-42 [ObjectType] *)
Inductive kind := Spu | CustomSpu | SpuGroup | Topic | Partition | ManagedConnector | SmartModule
  | TableFormat | DerivedStream | Mirror.
Definition kind_eqb (a b : kind) : bool :=
  match a, b with
  | Spu, Spu | CustomSpu, CustomSpu | SpuGroup, SpuGroup | Topic, Topic | Partition, Partition
  | ManagedConnector, ManagedConnector | SmartModule, SmartModule | TableFormat, TableFormat
  | DerivedStream, DerivedStream | Mirror, Mirror => true
  | _, _ => false
  end.

(** ** The policy *)

(** crates/fluvio-sc/src/services/auth/basic.rs 147-153 [Action] *)
Inductive action := MayCreate | MayRead | MayUpdate | MayDelete | MayAll.
Definition action_eqb (a b : action) : bool :=
  match a, b with
  | MayCreate, MayCreate | MayRead, MayRead | MayUpdate, MayUpdate | MayDelete, MayDelete | MayAll, MayAll => true
  | _, _ => false
  end.
(** basic.rs 95-98 [ActionUrn]: an action, on all objects of the kind or on one *)
Record perm := mkPerm { may : action; only : option bytes }.
(** basic.rs 174 [BasicRbacPolicy]: for each role and kind what is permitted;
    the maps are lists here, of which the first entry of a key counts *)
Definition rules := list (kind * list perm).
Definition policy := list (bytes * rules).

Fixpoint at_key {A} (l : list (bytes * A)) (k : bytes) : option A :=
  match l with [] => None | (x, v) :: t => if text_eqb x k then Some v else at_key t k end.
Fixpoint at_kind (l : rules) (k : kind) : option (list perm) :=
  match l with [] => None | (x, v) :: t => if kind_eqb x k then Some v else at_kind t k end.

(** [str::contains] *)
Fixpoint starts (s p : bytes) : bool :=
  match p, s with
  | [], _ => true
  | x :: p', y :: s' => (x =? y) && starts s' p'
  | _ :: _, [] => false
  end.
Fixpoint contains (s p : bytes) : bool :=
  starts s p || match s with [] => false | _ :: s' => contains s' p end.

(** basic.rs 210-222, the check of one permission *)
Definition permits (a : action) (instance : option bytes) (x : perm) : bool :=
  match only x, instance with
  | Some _, None => false
  | Some pi, Some i => contains pi i && (action_eqb (may x) a || action_eqb (may x) MayAll)
  | None, _ => action_eqb (may x) a || action_eqb (may x) MayAll
  end.
(** basic.rs 193-230 [evaluate] *)
Definition evaluate (p : policy) (a : action) (k : kind) (instance : option bytes) (scopes : list bytes) : bool :=
  existsb (fun scope => match at_key p scope with
                        | Some r => match at_kind r k with
                                    | Some l => existsb (permits a instance) l
                                    | None => false
                                    end
                        | None => false
                        end) scopes.

(** basic.rs 233-270 [Default for BasicRbacPolicy] *)
Definition default_policy : policy :=
  [(lit "Root",
    [(Spu, [mkPerm MayAll None]); (CustomSpu, [mkPerm MayAll None]); (SpuGroup, [mkPerm MayAll None]);
     (Topic, [mkPerm MayAll None]); (Partition, [mkPerm MayAll None]); (TableFormat, [mkPerm MayAll None]);
     (Mirror, [mkPerm MayAll (Some (lit "user1")); mkPerm MayAll (Some (lit "user2"))])])].

(** A permission in the policy file: basic.rs 106-121 [Serialize] and 123-144
    [Deserialize] for [ActionUrn]; the actions have their names (146-153).
    Quoting of JSON strings is left out. *)
Definition action_text (a : action) : bytes :=
  match a with
  | MayCreate => lit "Create" | MayRead => lit "Read" | MayUpdate => lit "Update"
  | MayDelete => lit "Delete" | MayAll => lit "All"
  end.
Definition parse_action (s : bytes) : option action :=
  find (fun a => text_eqb (action_text a) s) [MayCreate; MayRead; MayUpdate; MayDelete; MayAll].
Definition print_perm (x : perm) : bytes :=
  match only x with Some i => action_text (may x) ++ [58] ++ i | None => action_text (may x) end.
Definition parse_perm (s : bytes) : option perm :=
  let '(first, rest) := split_on 58 s in
  match parse_action first with
  | None => None
  | Some a => Some (mkPerm a (match rest with [] => None | i :: _ => Some i end))
  end.

(** ** Connections *)

(** What is known of a client: nothing, as everything is allowed
    (crates/fluvio-auth/src/root.rs), nothing, as only reading is allowed
    (crates/fluvio-sc/src/services/auth/mod.rs 54-97), or its scopes
    (basic.rs 46-50). *)
Inductive ctx := Root | ReadOnly | Basic (p : policy) (scopes : list bytes).

(** [allow_type_action]: root.rs 34-40, auth/mod.rs 80-86, basic.rs 54-62.  None
    of them fails, so what the handlers do on an error is left out. *)
Definition allow_type (c : ctx) (k : kind) (a : action) : bool :=
  match c with
  | Root => true
  | ReadOnly => action_eqb a MayRead || kind_eqb k CustomSpu
  | Basic p scopes => evaluate p a k None scopes
  end.
(** [allow_instance_action]: root.rs 43-50, auth/mod.rs 89-96, basic.rs 65-72 *)
Definition allow_instance (c : ctx) (k : kind) (a : action) (name : bytes) : bool :=
  match c with Root => true | ReadOnly => true | Basic _ _ => true end.

(** The authorization is chosen when the SC starts: crates/fluvio-sc/src/init.rs
    135-160; for basic authorization the scopes are read from the first message
    of the connection: basic.rs 29-43, crates/fluvio-auth/src/x509/identity.rs
    26-72.  [None] is a connection that is closed. *)
Definition connect (given : option policy) (read_only : bool) (first : option (list bytes)) : option ctx :=
  match given with
  | Some p => match first with Some scopes => Some (Basic p scopes) | None => None end
  | None => Some (if read_only then ReadOnly else Root)
  end.

(** A proxy sends this message with the scopes that a file gives to the name in
    the certificate of the client: crates/fluvio-auth/src/x509/authenticator.rs
    26-35 [get_scopes], 124-136 [authenticate].  [None] for a client without a
    certificate with a name; the proxy then refuses it. *)
Definition proxied (bindings : list (bytes * list bytes)) (principal : option bytes) : option (list bytes) :=
  match principal with
  | None => None
  | Some n => Some (match at_key bindings n with Some l => l | None => [] end)
  end.

(** ** The stores of the SC *)

(** A topic: whether it is a system topic, and how its replicas are chosen.
    Simplification: of the rest only what the handlers look at. *)
Inductive replicas := Computed (partitions : Z) | Assigned | FromHome | ToRemotes (remotes : list bytes).
Record topic := mkTopic { t_system : bool; t_replicas : replicas }.
Record spu := mkSpu { s_id : Z; s_custom : bool }.
(** a mirror: a cluster that is mirrored from here, or the one we mirror *)
Inductive mirror := MRemote | MHome.

Record sc := mkSc {
  topics : list (bytes * topic); spus : list (bytes * spu); groups : list (bytes * Z);
  partitions : list (bytes * bool); (* whether it is of a system topic *)
  modules : registry; tables : list (bytes * Z); mirrors : list (bytes * mirror) }.

Definition has {A} (l : list (bytes * A)) (k : bytes) : bool := match at_key l k with Some _ => true | None => false end.
Fixpoint put {A} (l : list (bytes * A)) (k : bytes) (v : A) : list (bytes * A) :=
  match l with
  | [] => [(k, v)]
  | (x, w) :: t => if text_eqb x k then (k, v) :: t else (x, w) :: put t k v
  end.
Definition drop {A} (l : list (bytes * A)) (k : bytes) : list (bytes * A) := filter (fun e => negb (text_eqb (fst e) k)) l.

Definition set_topics (s : sc) l := mkSc l (spus s) (groups s) (partitions s) (modules s) (tables s) (mirrors s).
Definition set_spus (s : sc) l := mkSc (topics s) l (groups s) (partitions s) (modules s) (tables s) (mirrors s).
Definition set_groups (s : sc) l := mkSc (topics s) (spus s) l (partitions s) (modules s) (tables s) (mirrors s).
Definition set_modules (s : sc) l := mkSc (topics s) (spus s) (groups s) (partitions s) l (tables s) (mirrors s).
Definition set_tables (s : sc) l := mkSc (topics s) (spus s) (groups s) (partitions s) (modules s) l (mirrors s).
Definition set_mirrors (s : sc) l := mkSc (topics s) (spus s) (groups s) (partitions s) (modules s) (tables s) l.

(** ** Requests *)
Inductive req :=
| CreateTopic (name : bytes) (t : topic) (dry_run : bool) (sound : sc -> bool)
| CreateGroup (name : bytes) (v : Z)
| CreateSpu (name : bytes) (id : Z) (dry_run : bool)
| CreateModule (name : bytes) (m : module)
| CreateTable (name : bytes) (v : Z)
| CreateMirror (name : bytes) (m : mirror)
| DeleteTopic (name : bytes) (force : bool)
| DeleteSpu (name : bytes)
| DeleteSpuId (id : Z)
| DeleteGroup (name : bytes)
| DeleteModule (name : bytes)
| DeleteTable (name : bytes)
| DeleteMirror (name : bytes)
| AddPartitions (name : bytes) (n : Z)
| AddRemote (name : bytes) (remote : bytes)
| List (k : kind) (filters : list bytes) (system : bool)
| Watch (k : kind).

(** What the client gets; [Closed]: the handler fails and the connection ends.
    Simplification: of listed and watched objects only the names. *)
Inductive reply := Accepted | Denied | AlreadyExists | NoSuch | Rejected | Listing (names : list bytes)
  | Updates (names : list bytes) | Closed.

(** crates/fluvio-sc/src/services/public_api/topic/create.rs 37-76, 94-104.
    [sound] stands for the other checks of 79-192 (which look at the SPUs and the
    SmartModules), and the wait for the partitions (225-281) is left out. *)
Definition create_topic (c : ctx) (name : bytes) (t : topic) (dry : bool) (sound : sc -> bool) (s : sc) : reply * sc :=
  if negb (allow_type c Topic MayCreate) then (Denied, s)
  else if has (topics s) name then (AlreadyExists, s)
  else if negb (sound s) then (Rejected, s)
  else if dry then (Accepted, s)
  else (Accepted, set_topics s (put (topics s) name t)).
(** public_api/spg/create.rs 28-85: written over what is there *)
Definition create_group (c : ctx) (name : bytes) (v : Z) (s : sc) : reply * sc :=
  if negb (allow_type c SpuGroup MayCreate) then (Denied, s)
  else (Accepted, set_groups s (put (groups s) name v)).
(** public_api/spu/register_custom_spus_req.rs 31-127 *)
Definition create_spu (c : ctx) (name : bytes) (id : Z) (dry : bool) (s : sc) : reply * sc :=
  if negb (allow_type c CustomSpu MayCreate) then (Denied, s)
  else if has (spus s) name || existsb (fun e => s_id (snd e) =? id) (spus s) then (AlreadyExists, s)
  else if dry then (Accepted, s)
  else (Accepted, set_spus s (put (spus s) name (mkSpu id true))).
(** public_api/smartmodule/create.rs 23-53; the rest is [PackageModel.create] *)
Definition create_module (c : ctx) (name : bytes) (m : module) (s : sc) : reply * sc :=
  if negb (allow_type c SmartModule MayCreate) then (Denied, s)
  else match create name m (modules s) with
       | (Done _, r) => (Accepted, set_modules s r)
       | (_, _) => (Rejected, s)
       end.
(** public_api/tableformat/create.rs 23-88 *)
Definition create_table (c : ctx) (name : bytes) (v : Z) (s : sc) : reply * sc :=
  if has (tables s) name then (AlreadyExists, s)
  else if negb (allow_type c TableFormat MayCreate) then (Denied, s)
  else (Accepted, set_tables s (put (tables s) name v)).
(** public_api/mirror/register.rs 14-51; [read_only] is the run mode of the SC *)
Definition create_mirror (read_only : bool) (name : bytes) (m : mirror) (s : sc) : reply * sc :=
  if read_only then (Rejected, s)
  else match at_key (mirrors s) name with
       | Some MRemote => (AlreadyExists, s)
       | _ => (Accepted, set_mirrors s (put (mirrors s) name m))
       end.

(** public_api/topic/delete.rs 24-104 *)
Definition delete_topic (c : ctx) (name : bytes) (force : bool) (s : sc) : reply * sc :=
  if negb (allow_instance c Topic MayDelete name) then (Denied, s)
  else match at_key (topics s) name with
       | None => (NoSuch, s)
       | Some t => match t_replicas t with
                   | FromHome => (Rejected, s)
                   | _ => if negb force && t_system t then (Rejected, s)
                          else (Accepted, set_topics s (drop (topics s) name))
                   end
       end.
(** public_api/spu/unregister_custom_spus_req.rs 23-118 *)
Definition unregister_spu (name : bytes) (u : spu) (s : sc) : reply * sc :=
  if s_custom u then (Accepted, set_spus s (drop (spus s) name)) else (Rejected, s).
Definition delete_spu (c : ctx) (name : bytes) (s : sc) : reply * sc :=
  if negb (allow_instance c CustomSpu MayDelete name) then (Denied, s)
  else match at_key (spus s) name with Some u => unregister_spu name u s | None => (NoSuch, s) end.
(** the same with a key that is an id (the name checked is that of the id); crates/fluvio-sc/src/stores/spu/store.rs 171-178 [get_by_id] *)
Definition delete_spu_id (c : ctx) (id : Z) (s : sc) : reply * sc :=
  if negb (allow_instance c CustomSpu MayDelete (print_dec id)) then (Denied, s)
  else match find (fun e => s_id (snd e) =? id) (spus s) with
       | Some e => unregister_spu (fst e) (snd e) s
       | None => (NoSuch, s)
       end.
(** public_api/spg/delete.rs 15-61 *)
Definition delete_group (c : ctx) (name : bytes) (s : sc) : reply * sc :=
  if negb (allow_instance c SpuGroup MayDelete name) then (Denied, s)
  else if has (groups s) name then (Accepted, set_groups s (drop (groups s) name)) else (NoSuch, s).
(** public_api/smartmodule/delete.rs 16-73; a name that cannot be parsed ends the connection (41) *)
Definition delete_module (c : ctx) (name : bytes) (s : sc) : reply * sc :=
  if negb (allow_instance c SmartModule MayDelete name) then (Denied, s)
  else match delete name (modules s) with
       | (Done _, r) => (Accepted, set_modules s r)
       | (NotFound, _) => (NoSuch, s)
       | (Refused, _) => (Closed, s)
       end.
(** public_api/tableformat/delete.rs 15-74 *)
Definition delete_table (c : ctx) (name : bytes) (s : sc) : reply * sc :=
  if negb (allow_instance c TableFormat MayDelete name) then (Denied, s)
  else if has (tables s) name then (Accepted, set_tables s (drop (tables s) name)) else (NoSuch, s).
(** public_api/mirror/unregister.rs 9-41 *)
Definition delete_mirror (read_only : bool) (name : bytes) (s : sc) : reply * sc :=
  if read_only then (Rejected, s)
  else if has (mirrors s) name then (Accepted, set_mirrors s (drop (mirrors s) name)) else (NoSuch, s).

(** public_api/topic/update/mod.rs 21-55 and add_partition.rs 21-77 *)
Definition add_partitions (c : ctx) (name : bytes) (n : Z) (s : sc) : reply * sc :=
  if negb (allow_instance c Topic MayUpdate name) then (Denied, s)
  else match at_key (topics s) name with
       | None => (NoSuch, s)
       | Some t => if t_system t then (Rejected, s)
                   else match t_replicas t with
                        | Computed m => (Accepted, set_topics s (put (topics s) name
                                          (mkTopic (t_system t) (Computed (wrap_u 32 (m + n))))))
                        | _ => (Rejected, s)
                        end
       end.
(** update/mod.rs 21-55 and add_mirror.rs 23-134 *)
Definition add_remote (c : ctx) (name remote : bytes) (s : sc) : reply * sc :=
  if negb (allow_instance c Topic MayUpdate name) then (Denied, s)
  else match at_key (topics s) name, at_key (mirrors s) remote with
       | None, _ => (NoSuch, s)
       | Some _, None => (NoSuch, s)
       | Some _, Some MHome => (Rejected, s)
       | Some t, Some MRemote =>
           match t_replicas t with
           | ToRemotes l => if existsb (text_eqb remote) l then (AlreadyExists, s)
                            else if t_system t then (Rejected, s)
                            else (Accepted, set_topics s (put (topics s) name
                                              (mkTopic (t_system t) (ToRemotes (l ++ [remote])))))
           | _ => (Rejected, s)
           end
       end.

(** crates/fluvio-sc-schema/src/objects/list.rs 53-64 and
    crates/fluvio-stream-model/src/store/filter.rs 5-9 *)
Definition selected (filters : list bytes) (name : bytes) : bool :=
  match filters with [] => true | _ => existsb (contains name) filters end.
Definition names_of {A} (l : list (bytes * A)) : list bytes := map fst l.

(** public_api/list.rs 25-91 and the handlers: topic/fetch.rs 14-55, spu/fetch.rs
    15-60 and 63-100, spg/fetch.rs 16-56, partition/mod.rs 15-50,
    smartmodule/list.rs 18-83, list.rs 113-158 (table formats), mirror/list.rs
    12-30 *)
Definition list_objects (c : ctx) (k : kind) (filters : list bytes) (system : bool) (s : sc) : reply :=
  match k with
  | Topic => if negb (allow_type c Topic MayRead) then Listing []
             else Listing (filter (selected filters)
                     (names_of (filter (fun e => Bool.eqb (t_system (snd e)) system) (topics s))))
  | Spu => if negb (allow_type c Spu MayRead) then Listing []
           else Listing (filter (selected filters) (names_of (spus s)))
  | SpuGroup => if negb (allow_type c SpuGroup MayRead) then Listing []
                else Listing (filter (selected filters) (names_of (groups s)))
  | CustomSpu => if negb (allow_type c CustomSpu MayRead) then Listing []
                 else Listing (filter (selected filters) (names_of (filter (fun e => s_custom (snd e)) (spus s))))
  | Partition => if negb (allow_type c Partition MayRead) then Listing []
                 else Listing (names_of (filter (fun e => Bool.eqb (snd e) system) (partitions s)))
  | SmartModule => if negb (allow_type c SmartModule MayRead) then Listing []
                   else match list_modules filters (modules s) with
                        | Some l => Listing (names_of l)
                        | None => Closed
                        end
  | TableFormat => if negb (allow_type c TableFormat MayRead) then Listing []
                   else Listing (filter (selected filters) (names_of (tables s)))
  | Mirror => Listing (names_of (mirrors s))
  | ManagedConnector | DerivedStream => Closed
  end.

(** public_api/watch.rs 30-93, and the first update of 141-243: everything that
    is there.  The updates that follow (C14) are not in this model. *)
Definition watch_objects (k : kind) (s : sc) : reply :=
  match k with
  | Topic => Updates (names_of (topics s))
  | Spu => Updates (names_of (spus s))
  | SpuGroup => Updates (names_of (groups s))
  | Partition => Updates (names_of (partitions s))
  | SmartModule => Updates (names_of (modules s))
  | TableFormat => Updates (names_of (tables s))
  | CustomSpu | ManagedConnector | DerivedStream | Mirror => Closed
  end.

(** public_api/public_server.rs 82-135, create.rs 21-51, update.rs, delete.rs 28-61 *)
Definition handle (read_only : bool) (c : ctx) (q : req) (s : sc) : reply * sc :=
  match q with
  | CreateTopic n t dry sound => create_topic c n t dry sound s
  | CreateGroup n v => create_group c n v s
  | CreateSpu n id dry => create_spu c n id dry s
  | CreateModule n m => create_module c n m s
  | CreateTable n v => create_table c n v s
  | CreateMirror n m => create_mirror read_only n m s
  | DeleteTopic n force => delete_topic c n force s
  | DeleteSpu n => delete_spu c n s
  | DeleteSpuId id => delete_spu_id c id s
  | DeleteGroup n => delete_group c n s
  | DeleteModule n => delete_module c n s
  | DeleteTable n => delete_table c n s
  | DeleteMirror n => delete_mirror read_only n s
  | AddPartitions n k => add_partitions c n k s
  | AddRemote n r => add_remote c n r s
  | List k filters system => (list_objects c k filters system s, s)
  | Watch k => (watch_objects k s, s)
  end.

(** Requests of one connection, until it is closed. *)
Fixpoint session (read_only : bool) (c : ctx) (qs : list req) (s : sc) : list reply * sc :=
  match qs with
  | [] => ([], s)
  | q :: qs' => let '(a, s') := handle read_only c q s in
                match a with
                | Closed => ([a], s')
                | _ => let '(l, s'') := session read_only c qs' s' in (a :: l, s'')
                end
  end.
