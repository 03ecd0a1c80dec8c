(** The wait of a request that creates a topic for the partitions of the topic.

    After the topic is in the controller's store (WaitModel), the request counts the
    partitions that belong to the topic and are online in the controller's copy of the
    partitions, until there are as many as the topic has, or its time is up.

    Simplifications: one request, since requests do not change partitions; names are
    numbers; of a partition its name, its owner and whether it is online are kept;
    partitions are a list of the names with their values; every change that reaches
    the copy is published, also one that changes nothing, so the request may wake up
    once more than it would; a change of the copy and its publication are one step
    (MetaModel keeps them apart); the copy is changed by the events of the storage in
    their order, re-syncs are left out (WaitModel, LocalModel). *)
From Verif Require Import Base.

(** fluvio-stream-model/src/store/metadata.rs 12-24; [p_owner] is the id of the owner,
    for a local cluster the name of the topic: fluvio-stream-dispatcher/src/metadata/local.rs 17-33;
    [p_online]: fluvio-controlplane-metadata/src/partition/status.rs 113-115 *)
Record part := mkP { p_key : Z; p_owner : option Z; p_online : bool }.
(** fluvio-stream-dispatcher/src/metadata/local.rs 299-303 *)
Inductive pevent := PMod (p : part) | PDel (k : Z).

Definition without (k : Z) (l : list part) : list part := filter (fun p => negb (p_key p =? k)) l.
(** local.rs 452-494 for the storage, fluvio-stream-model/src/store/dual_store.rs 303-386
    [apply_changes] for the copy *)
Definition change (e : pevent) (l : list part) : list part :=
  match e with PMod p => p :: without (p_key p) l | PDel k => without k l end.

(** fluvio-stream-model/src/store/metadata.rs 131-136 [is_owned] *)
Definition is_owned (uid : Z) (p : part) : bool :=
  match p_owner p with Some o => o =? uid | None => false end.

(** fluvio-sc/src/services/public_api/topic/create.rs 251-268: the number counted so far
    and whether the number wanted was met *)
Fixpoint scan (uid count n : Z) (l : list part) : Z * bool :=
  match l with
  | [] => (n, false)
  | p :: r =>
      if is_owned uid p && p_online p
      then if n + 1 =? count then (n + 1, true) else scan uid count (n + 1) r
      else scan uid count n r
  end.

(** create.rs 230-242: whether the topic is a mirror, and of the topic that is in the store
    the id and the number of partitions *)
Record want := mkWant { n_mirror : bool; n_uid : Z; n_count : Z }.
(** create.rs 233, 265; 274 *)
Inductive reply := Ready | NotProvisioned (n count : Z).
(** [RSync]: at the top of the loop (249); [RScan]: about to read the partitions (253);
    [RWait]: in the select (271-279); [mark] is what the listener has seen
    (dual_store.rs 434-439, 515-536) *)
Inductive rphase := RSync (mark : Z) | RScan (mark : Z) | RWait (mark n : Z) | RDone (r : reply).

Record rstate := mkR {
  r_disk : list part;          (** the metadata storage *)
  r_way : list pevent;         (** on the way to the dispatcher *)
  r_copy : list part;          (** the controller's store *)
  r_epoch : Z;                 (** the last change that was published *)
  r_task : option (want * rphase) }.
Definition nothing_yet : rstate := mkR [] [] [] 0 None.

(** [VWrite]: a controller, or the deletion of a topic, changes the storage; [VSee]: the
    dispatcher takes the next event (fluvio-stream-dispatcher/src/dispatcher/metadata.rs 128-142) and
    publishes the change; [VAsk]: the topic has been created and the wait begins;
    [VStep]: the request goes on; [VWake]: its listener wakes it; [VTimer]: its time is up. *)
Inductive revent := VWrite (e : pevent) | VSee | VAsk (w : want) | VStep | VWake | VTimer.

Definition with_task (s : rstate) (w : want) (p : rphase) : rstate :=
  mkR (r_disk s) (r_way s) (r_copy s) (r_epoch s) (Some (w, p)).

Definition ready_step (s : rstate) (e : revent) : option rstate :=
  match e with
  | VWrite c => Some (mkR (change c (r_disk s)) (r_way s ++ [c]) (r_copy s) (r_epoch s) (r_task s))
  | VSee =>
      match r_way s with
      | [] => None
      | c :: r => Some (mkR (r_disk s) r (change c (r_copy s)) (r_epoch s + 1) (r_task s))
      end
  | VAsk w =>
      match r_task s with
      | None => Some (with_task s w (if n_mirror w then RDone Ready else RSync 0))
      | Some _ => None
      end
  | VStep =>
      match r_task s with
      | Some (w, RSync _) => Some (with_task s w (RScan (r_epoch s)))
      | Some (w, RScan mark) =>
          let (n, found) := scan (n_uid w) (n_count w) 0 (r_copy s) in
          Some (with_task s w (if found then RDone Ready else RWait mark n))
      | _ => None
      end
  | VWake =>
      match r_task s with
      | Some (w, RWait mark _) => if r_epoch s >? mark then Some (with_task s w (RSync mark)) else None
      | _ => None
      end
  | VTimer =>
      match r_task s with
      | Some (w, RWait _ n) => Some (with_task s w (RDone (NotProvisioned n (n_count w))))
      | _ => None
      end
  end.

Fixpoint ready_run (s : rstate) (l : list revent) : option rstate :=
  match l with [] => Some s | e :: r => match ready_step s e with Some s' => ready_run s' r | None => None end end.
