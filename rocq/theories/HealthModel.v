(** The controller's view of which servers are up.

    Each server (SPU) keeps one connection to the controller (SC).  The task that
    serves it notes in a table that the server is up when it has registered, and
    that it is down when the connection has ended; the SPU controller writes what
    the table says into the metadata.  Tasks run at the same time, so a run is an
    interleaving of their steps (see EventModel for atomics and events). *)
From Verif Require Import Base EventModel.

(** crates/fluvio-controlplane-metadata/src/spu/status.rs 64-75 [SpuStatusResolution];
    a new server starts as Init (the default). *)
Inductive sstatus := SInit | SOnline | SOffline.
(** status.rs 41-43, 49-51 *)
Definition is_up (s : sstatus) : bool := match s with SOnline => true | _ => false end.
Definition is_init (s : sstatus) : bool := match s with SInit => true | _ => false end.
(** [set_online], [set_offline] (status.rs 54-61) as the controller calls them. *)
Definition as_status (b : bool) : sstatus := if b then SOnline else SOffline.

(** ** The task of a connection *)

(** Where the task is: in [update] (fluvio-sc/src/stores/spu/mod.rs 78-95) with the
    value it was called with, before the insert; inserted and about to load the
    counter; has loaded the counter and is about to store it; stored and about to
    notify; in [dispatch_loop] (fluvio-sc/src/services/private_api/private_server.rs
    111); returned (119). *)
Inductive where_k :=
| KInsert (up : bool) | KLoad (up : bool) | KStore (up : bool) (v : Z) | KNotify (up : bool)
| KServing | KEnded.
Record conn := mkK { k_spu : Z; k_at : where_k }.

(** After [update(spu, true)] comes the dispatch loop, after [update(spu, false)]
    nothing (private_server.rs 109-119). *)
Definition after (up : bool) : where_k := if up then KServing else KEnded.

(** ** The SPU controller *)

(** Where the controller is (fluvio-sc/src/controllers/spus/controller.rs): before
    the clone of the servers (81); before the read of the table (84), with the
    clone; in the loop that updates statuses (122-127), with what is left; in
    select! (63-73). *)
Inductive where_s :=
| CSync | CRead (l : list (Z * sstatus)) | CWrite (l : list (Z * sstatus)) | CListen.

Record health := mkH {
  h_map : Z -> option bool;        (** the table (stores/spu/mod.rs 48) *)
  h_value : Z;                     (** the counter of [event] (mod.rs 49); i64 without overflow *)
  h_conns : list conn;             (** one per registered connection, in order *)
  h_spus : list (Z * sstatus);     (** the servers in the store, by id; a store is keyed by name, ids are unique *)
  h_epoch : Z;                     (** changes of that store so far *)
  h_at : where_s;
  h_seen : Z;                      (** [last_change] of [spu_listener] (controller.rs 54) *)
  h_lis : listener;                (** [health_listener] (controller.rs 57) *)
  h_late : list (Z * sstatus) }.   (** updates the controller stopped waiting for *)

(** A controller that starts: the servers with the statuses they had, an empty
    table (mod.rs 66-71), the initial sync done (controller.rs 54-57). *)
Definition started (spus : list (Z * sstatus)) : health :=
  mkH (fun _ => None) 0 [] spus 1 CSync 1 new_listener [].

Definition find_spu (s : Z) (l : list (Z * sstatus)) : option sstatus :=
  option_map snd (find (fun e => fst e =? s) l).
Definition known (s : Z) (l : list (Z * sstatus)) : bool := existsb (fun e => fst e =? s) l.
Definition set_status (s : Z) (st : sstatus) (l : list (Z * sstatus)) : list (Z * sstatus) :=
  map (fun e => if fst e =? s then (s, st) else e) l.

(** controller.rs 86-118, one server: the update it needs, if any. *)
Definition sync_one (m : Z -> option bool) (e : Z * sstatus) : list (Z * sstatus) :=
  match m (fst e) with
  | Some b => if is_init (snd e) then [(fst e, as_status b)]
              else if Bool.eqb (is_up (snd e)) b then [] else [(fst e, as_status b)]
  | None => []
  end.
Definition sync_changes (m : Z -> option bool) (l : list (Z * sstatus)) : list (Z * sstatus) :=
  flat_map (sync_one m) l.

Definition set_at (l : list conn) (i : nat) (w : where_k) : list conn :=
  match nth_error l i with
  | Some c => firstn i l ++ mkK (k_spu c) w :: skipn (S i) l
  | None => l
  end.

Inductive haction :=
| HConnect (s : Z)          (** a server registers: private_server.rs 80-109; only known servers (86, 181-188 of stores/spu/store.rs) *)
| HEnd (i : nat)            (** dispatch_loop returns: timer, end of stream or error (143-217) *)
| HTask (i : nat)           (** the next step of [update] in task i *)
| HAdd (s : Z)              (** a server is added to the store, status Init *)
| HRemove (s : Z)           (** a server is removed from the store *)
| HClone | HReadTable       (** controller.rs 81; 84-120 *)
| HWrite                    (** controller.rs 126: the update is applied and seen in the store *)
| HTimeout                  (** the update does not show in time: [update_status] returns an error
                                (fluvio-stream-dispatcher/src/store/mod.rs 270-276), inner_loop ends
                                and starts again with new listeners (controller.rs 40-58) *)
| HLate                     (** the dispatcher applies an update after that; without the server it is
                                dropped (fluvio-stream-dispatcher/src/dispatcher/metadata.rs 220-227) *)
| HWritten                  (** all updates done: to select! (controller.rs 129, 63) *)
| HListenStep (a : listen_step)  (** a step of health_listener.listen() (controller.rs 69) *)
| HStoreChange              (** spu_listener.listen() returns, load_last (controller.rs 64-66); the other
                                future is dropped.  Such a listener misses no change (C53), so it
                                returns if and only if the store has changed. *)
| HResync.                  (** the dispatcher lists all servers again, every five minutes by default, and
                                syncs the store with the list (metadata.rs 27-33, 109-126, 169-192); that
                                starts a new epoch and tells the listeners even if nothing is new
                                (fluvio-stream-model/src/store/dual_store.rs 230-231, 282) *)

Definition with_conns (s : health) (c : list conn) : health :=
  mkH (h_map s) (h_value s) c (h_spus s) (h_epoch s) (h_at s) (h_seen s) (h_lis s) (h_late s).
Definition with_store (s : health) (l : list (Z * sstatus)) : health :=
  mkH (h_map s) (h_value s) (h_conns s) l (h_epoch s + 1) (h_at s) (h_seen s) (h_lis s) (h_late s).
Definition with_at (s : health) (w : where_s) : health :=
  mkH (h_map s) (h_value s) (h_conns s) (h_spus s) (h_epoch s) w (h_seen s) (h_lis s) (h_late s).
Definition with_late (s : health) (l : list (Z * sstatus)) : health :=
  mkH (h_map s) (h_value s) (h_conns s) (h_spus s) (h_epoch s) (h_at s) (h_seen s) (h_lis s) l.

(** One step of [update] in a task.  [insert] under the write lock (mod.rs 79-80);
    the counter moves if the value is new or there was none (82, 89-92);
    [update_increment] loads, stores and notifies (fluvio-types/src/event.rs 99-107). *)
Definition task_step (s : health) (i : nat) : option health :=
  match nth_error (h_conns s) i with
  | None => None
  | Some c =>
    let at_ w := set_at (h_conns s) i w in
    match k_at c with
    | KInsert b =>
      let changed := match h_map s (k_spu c) with Some old => negb (Bool.eqb b old) | None => true end in
      Some (mkH (fun k => if k =? k_spu c then Some b else h_map s k) (h_value s)
              (at_ (if changed then KLoad b else after b)) (h_spus s) (h_epoch s) (h_at s) (h_seen s) (h_lis s) (h_late s))
    | KLoad b => Some (with_conns s (at_ (KStore b (h_value s))))
    | KStore b v =>
      Some (mkH (h_map s) (v + 1) (at_ (KNotify b)) (h_spus s) (h_epoch s) (h_at s) (h_seen s) (h_lis s) (h_late s))
    | KNotify b =>
      Some (mkH (h_map s) (h_value s) (at_ (after b)) (h_spus s) (h_epoch s) (h_at s) (h_seen s)
              (notified (h_lis s)) (h_late s))
    | KServing | KEnded => None
    end
  end.

Definition hstep (s : health) (a : haction) : option health :=
  match a with
  | HConnect k => if known k (h_spus s) then Some (with_conns s (h_conns s ++ [mkK k (KInsert true)])) else None
  | HEnd i =>
    match nth_error (h_conns s) i with
    | Some (mkK _ KServing) => Some (with_conns s (set_at (h_conns s) i (KInsert false)))
    | _ => None
    end
  | HTask i => task_step s i
  | HAdd k => if known k (h_spus s) then None else Some (with_store s (h_spus s ++ [(k, SInit)]))
  | HRemove k =>
    if known k (h_spus s) then Some (with_store s (filter (fun e => negb (fst e =? k)) (h_spus s))) else None
  | HClone => match h_at s with CSync => Some (with_at s (CRead (h_spus s))) | _ => None end
  | HReadTable =>
    match h_at s with CRead l => Some (with_at s (CWrite (sync_changes (h_map s) l))) | _ => None end
  | HWrite =>
    match h_at s with
    | CWrite ((k, st) :: l) =>
      if known k (h_spus s) then Some (with_at (with_store s (set_status k st (h_spus s))) (CWrite l)) else None
    | _ => None
    end
  | HTimeout =>
    match h_at s with
    | CWrite (e :: _) =>
      Some (mkH (h_map s) (h_value s) (h_conns s) (h_spus s) (h_epoch s) CSync (h_epoch s) new_listener (h_late s ++ [e]))
    | _ => None
    end
  | HLate =>
    match h_late s with
    | (k, st) :: l =>
      Some (if known k (h_spus s) then with_late (with_store s (set_status k st (h_spus s))) l else with_late s l)
    | [] => None
    end
  | HWritten => match h_at s with CWrite [] => Some (with_at s CListen) | _ => None end
  | HListenStep a =>
    match h_at s, a with
    | _, Drop => None
    | CListen, _ =>
      match lstep Offsets (h_value s) a (h_lis s) with
      | Some (l, r) =>
        Some (mkH (h_map s) (h_value s) (h_conns s) (h_spus s) (h_epoch s)
                (match r with Some _ => CSync | None => CListen end) (h_seen s) l (h_late s))
      | None => None
      end
    | _, _ => None
    end
  | HStoreChange =>
    match h_at s, l_at (h_lis s) with
    | CListen, LOut | CListen, LWaiting _ =>
      if h_seen s <? h_epoch s
      then Some (mkH (h_map s) (h_value s) (h_conns s) (h_spus s) (h_epoch s) CSync (h_epoch s)
                   (mkL (l_last (h_lis s)) LOut) (h_late s))
      else None
    | _, _ => None
    end
  | HResync => Some (with_store s (h_spus s))
  end.

Fixpoint hexec (s : health) (l : list haction) : option health :=
  match l with
  | [] => Some s
  | a :: t => match hstep s a with Some s' => hexec s' t | None => None end
  end.
