(** What a policy grants, and which requests need it. *)
From Verif Require Import Base NameModel PackageModel AuthModel.

(** A policy has one entry for each role, with one for each kind. *)
Definition proper (p : policy) : Prop :=
  NoDup (map fst p) /\ forall role r, In (role, r) p -> NoDup (map fst r).

(** One of the roles has a permission for the action, or for all, on every
    object of this kind. *)
Definition grants (p : policy) (roles : list bytes) (a : action) (k : kind) : Prop :=
  exists role r l x, In role roles /\ In (role, r) p /\ In (k, l) r /\ In x l /\
    only x = None /\ (may x = a \/ may x = MayAll).
(** The same with permissions for one object, of this name. *)
Definition grants_on (p : policy) (roles : list bytes) (a : action) (k : kind) (name : bytes) : Prop :=
  exists role r l x, In role roles /\ In (role, r) p /\ In (k, l) r /\ In x l /\
    (only x = None \/ only x = Some name) /\ (may x = a \/ may x = MayAll).

(** What a client may do: anything if there is no policy; in read-only mode
    reading, and registering SPUs. *)
Definition allowed (c : ctx) (a : action) (k : kind) : Prop :=
  match c with
  | Root => True
  | ReadOnly => a = MayRead \/ k = CustomSpu
  | Basic p roles => grants p roles a k
  end.
Definition proper_ctx (c : ctx) : Prop := match c with Basic p _ => proper p | _ => True end.

(** The kind of object a request creates, without mirrors. *)
Definition creates (q : req) : option kind :=
  match q with
  | CreateTopic _ _ _ _ => Some Topic
  | CreateGroup _ _ => Some SpuGroup
  | CreateSpu _ _ _ => Some CustomSpu
  | CreateModule _ _ => Some SmartModule
  | CreateTable _ _ => Some TableFormat
  | _ => None
  end.
(** The kind of object a request lists, without mirrors. *)
Definition lists (q : req) : option kind :=
  match q with List Mirror _ _ => None | List k _ _ => Some k | _ => None end.
Definition listable (k : kind) : Prop := k <> Mirror /\ k <> ManagedConnector /\ k <> DerivedStream.

(** a part of a text *)
Definition part (p s : bytes) : Prop := exists a b, s = a ++ p ++ b.
Definition wanted (filters : list bytes) (name : bytes) : Prop := filters = [] \/ exists f, In f filters /\ part f name.

(** a list a client gets has just these names *)
Definition shows (a : reply) (names : bytes -> Prop) : Prop := exists l, a = Listing l /\ forall n, In n l <-> names n.
Definition watches (a : reply) (names : bytes -> Prop) : Prop := exists l, a = Updates l /\ forall n, In n l <-> names n.

(** the names of the objects of a kind *)
Definition named (k : kind) (s : sc) (n : bytes) : Prop :=
  match k with
  | Topic => exists t, In (n, t) (topics s)
  | Spu => exists u, In (n, u) (spus s)
  | CustomSpu => exists u, In (n, u) (spus s) /\ s_custom u = true
  | SpuGroup => exists v, In (n, v) (groups s)
  | Partition => exists v, In (n, v) (partitions s)
  | SmartModule => exists m, In (n, m) (modules s)
  | TableFormat => exists v, In (n, v) (tables s)
  | Mirror => exists m, In (n, m) (mirrors s)
  | ManagedConnector | DerivedStream => False
  end.

(** the policy without permissions for single objects *)
Definition general (p : policy) : policy :=
  map (fun e => (fst e, map (fun f => (fst f, filter (fun x => match only x with None => true | Some _ => false end) (snd f)))
                            (snd e))) p.

Definition topic_gone (name : bytes) (s s' : sc) : Prop :=
  (forall t, ~ In (name, t) (topics s')) /\ (forall n t, n <> name -> (In (n, t) (topics s') <-> In (n, t) (topics s))) /\
  spus s' = spus s /\ groups s' = groups s /\ partitions s' = partitions s /\ modules s' = modules s /\
  tables s' = tables s /\ mirrors s' = mirrors s.

(** A request that creates an object of this name, which is not a trial, and
    nothing stands against it. *)
Definition fresh (q : req) (s : sc) (name : bytes) : Prop :=
  match q with
  | CreateTopic n _ dry sound => n = name /\ dry = false /\ sound s = true /\ ~ named Topic s n
  | CreateGroup n _ => n = name
  | CreateSpu n id dry => n = name /\ dry = false /\ ~ named Spu s n /\ forall m u, In (m, u) (spus s) -> s_id u <> id
  | CreateTable n _ => n = name /\ ~ named TableFormat s n
  | _ => False
  end.

(** requests of a client that has no permission for them *)
Definition without_permission (c : ctx) (q : req) : Prop :=
  exists k, (creates q = Some k /\ k <> TableFormat /\ ~ allowed c MayCreate k) \/
            (lists q = Some k /\ listable k /\ ~ allowed c MayRead k).

(** Names are unique for each kind, and ids of SPUs too. *)
Definition sound_stores (s : sc) : Prop :=
  NoDup (map fst (topics s)) /\ NoDup (map fst (spus s)) /\ NoDup (map (fun e => s_id (snd e)) (spus s)) /\
  NoDup (map fst (groups s)) /\ NoDup (map fst (tables s)) /\ NoDup (map fst (mirrors s)).

(** the object a request deletes (SmartModules: C84) *)
Definition target (q : req) (s : sc) (k : kind) (name : bytes) : Prop :=
  match q with
  | DeleteTopic n _ => k = Topic /\ n = name
  | DeleteSpu n => k = Spu /\ n = name
  | DeleteSpuId id => k = Spu /\ exists u, In (name, u) (spus s) /\ s_id u = id
  | DeleteGroup n => k = SpuGroup /\ n = name
  | DeleteTable n => k = TableFormat /\ n = name
  | DeleteMirror n => k = Mirror /\ n = name
  | _ => False
  end.
(** Objects that are there are deleted; mirrored topics only where they come
    from, system topics only by force, SPUs only if they were registered, and
    mirrors not in read-only mode. *)
Definition deletable (ro : bool) (q : req) (s : sc) (name : bytes) : Prop :=
  match q with
  | DeleteTopic _ force => exists t, In (name, t) (topics s) /\ t_replicas t <> FromHome /\ (t_system t = true -> force = true)
  | DeleteSpu _ | DeleteSpuId _ => exists u, In (name, u) (spus s) /\ s_custom u = true
  | DeleteGroup _ => named SpuGroup s name
  | DeleteTable _ => named TableFormat s name
  | DeleteMirror _ => named Mirror s name /\ ro = false
  | _ => False
  end.
(** only this object is gone *)
Definition only_gone (k : kind) (name : bytes) (s s' : sc) : Prop :=
  (forall x, named k s' x <-> named k s x /\ x <> name) /\
  forall k' x, k' <> k -> (k = Spu -> k' <> CustomSpu) -> (named k' s' x <-> named k' s x).

(** something stands against what a request would create *)
Definition taken (q : req) (s : sc) : Prop :=
  match q with
  | CreateTopic n _ _ _ => named Topic s n
  | CreateSpu n id _ => named Spu s n \/ exists m u, In (m, u) (spus s) /\ s_id u = id
  | CreateTable n _ => named TableFormat s n
  | CreateMirror n _ => In (n, MRemote) (mirrors s)
  | _ => False
  end.
(** the only topic that is different, and how it is replicated now *)
Definition topic_now (name : bytes) (r : replicas) (s s' : sc) : Prop :=
  (forall t, In (name, t) (topics s') <-> t = mkTopic false r) /\
  (forall n t, n <> name -> (In (n, t) (topics s') <-> In (n, t) (topics s))) /\
  spus s' = spus s /\ groups s' = groups s /\ partitions s' = partitions s /\ modules s' = modules s /\
  tables s' = tables s /\ mirrors s' = mirrors s.

(** the entries of a store after one was written, and those of before *)
Definition written {A} (n : bytes) (v : A) (l l' : list (bytes * A)) : Prop :=
  forall x y, In (x, y) l' <-> (x = n /\ y = v) \/ (x <> n /\ In (x, y) l).
(** What a request creates, which is not a trial (SmartModules: C84), has been
    written, and nothing else has changed. *)
Definition made (q : req) (s s' : sc) : Prop :=
  match q with
  | CreateTopic n t false _ => written n t (topics s) (topics s') /\ s' = set_topics s (topics s')
  | CreateGroup n v => written n v (groups s) (groups s') /\ s' = set_groups s (groups s')
  | CreateSpu n id false => written n (mkSpu id true) (spus s) (spus s') /\ s' = set_spus s (spus s')
  | CreateTable n v => written n v (tables s) (tables s') /\ s' = set_tables s (tables s')
  | CreateMirror n m => written n m (mirrors s) (mirrors s') /\ s' = set_mirrors s (mirrors s')
  | _ => True
  end.
