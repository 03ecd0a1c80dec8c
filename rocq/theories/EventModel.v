(** Events: values that are published and listeners that wait for them.

    Tasks run at the same time; the atomics are sequentially consistent
    (Ordering::SeqCst), so a run is an interleaving of their loads and stores.
    [event_listener::Event] is modelled as it is documented: a listener that is
    registered is notified by every later notify(usize::MAX), a notification
    stays until it is awaited, and awaiting returns if and only if the listener
    was notified. *)
From Verif Require Export Base.

Notation task := nat.

(** Which of the three kinds of listeners: offset change listeners
    (crates/fluvio-types/src/event.rs 119-187), sticky events (event.rs 9-54, and
    SimpleEvent, crates/fluvio-stream-model/src/store/event.rs 48-86; the flag is
    the value, 0 or 1), listeners of metadata stores
    (crates/fluvio-stream-model/src/store/dual_store.rs 404-492). *)
Inductive kind := Offsets | Sticky | Metadata.

(** Is there something new?  has_new_value (event.rs 144-153), is_set (event.rs
    24-26; a listener has no last value, which stays 0), has_change (dual_store.rs
    447-452). *)
Definition is_new (k : kind) (value last : Z) : bool :=
  match k with
  | Offsets | Sticky => negb (value =? last)
  | Metadata => last <? value
  end.
(** An offset listener remembers what it returns (event.rs 168, 175, 181). *)
Definition remember (k : kind) (value last : Z) : Z :=
  match k with Offsets => value | Sticky | Metadata => last end.

(** Where a task is in listen: not in it; the first check found nothing new;
    registered (and notified or not); the second check found nothing new, it
    awaits; the await has returned. *)
Inductive where_l := LOut | LChecked | LRegistered (notified : bool) | LWaiting (notified : bool) | LWoken.
Record listener := mkL { l_last : Z; l_at : where_l }.
(** A new listener: OffsetChangeListener::new (event.rs 131-136),
    ChangeListener::new (dual_store.rs 434-439). *)
Definition new_listener : listener := mkL 0 LOut.

(** One step of listen: OffsetChangeListener::listen (event.rs 165-186),
    StickyEvent::listen (event.rs 28-42), ChangeListener::listen (dual_store.rs
    474-492).  With it comes the value that is returned, if the call returns (for
    the two other kinds: the value at the time).  A call that awaits can be
    dropped, as select! does. *)
Inductive listen_step := Check | Register | Recheck | Wake | Read | Drop.
Definition lstep (k : kind) (value : Z) (a : listen_step) (l : listener) : option (listener * option Z) :=
  let return_ := Some (mkL (remember k value (l_last l)) LOut, Some value) in
  match a, l_at l with
  | Check, LOut => if is_new k value (l_last l) then return_ else Some (mkL (l_last l) LChecked, None)
  | Register, LChecked => Some (mkL (l_last l) (LRegistered false), None)
  | Recheck, LRegistered n => if is_new k value (l_last l) then return_ else Some (mkL (l_last l) (LWaiting n), None)
  | Wake, LWaiting true => Some (mkL (l_last l) LWoken, None)
  | Read, LWoken => return_
  | Drop, LWaiting _ => Some (mkL (l_last l) LOut, None)
  | _, _ => None
  end.
(** event.notify(usize::MAX). *)
Definition notified (l : listener) : listener :=
  mkL (l_last l) match l_at l with LRegistered _ => LRegistered true | LWaiting _ => LWaiting true | w => w end.

(** Where a task is in publishing: not in it; the value it will store; stored,
    and about to notify. *)
Inductive where_p := POut | PHas (v : Z) | PStored.

(** The value, the epoch of the store (metadata only), and the tasks. *)
Record event := mkE { e_value : Z; e_epoch : Z; e_pubs : task -> where_p; e_lis : task -> listener }.
Definition new_event (v : Z) : event := mkE v 0 (fun _ => POut) (fun _ => new_listener).
Definition set {A} (f : task -> A) (i : task) (a : A) : task -> A := fun j => if Nat.eqb j i then a else f j.

Inductive action :=
  | Update (i : task) (v : Z) | Load (i : task) | Write (i : task) | Store (i : task) | Notify (i : task)
  | Listen (j : task) (a : listen_step) | Sync (j : task).

Definition estep (k : kind) (s : event) (a : action) : option (event * option (task * Z)) :=
  let pub i p := set (e_pubs s) i p in
  match a with
  (* OffsetPublisher::update (event.rs 98-102) up to the store; StickyEvent::notify
     (event.rs 48-51) likewise, where the value is 1. *)
  | Update i v =>
      match k, e_pubs s i with
      | Offsets, POut => Some (mkE v (e_epoch s) (pub i PStored) (e_lis s), None)
      | Sticky, POut => Some (mkE 1 (e_epoch s) (pub i PStored) (e_lis s), None)
      | _, _ => None
      end
  (* OffsetPublisher::update_increment (event.rs 104-107) and GroupNotification::sync
     (crates/fluvio-spu/src/replication/follower/controller.rs 446-449): the load. *)
  | Load i =>
      match k, e_pubs s i with
      | Offsets, POut => Some (mkE (e_value s) (e_epoch s) (pub i (PHas (wrap_s 64 (e_value s + 1)))) (e_lis s), None)
      | _, _ => None
      end
  (* LocalStore::apply_changes and sync_all (dual_store.rs 212-282, 304-373) up to
     the release of the lock, if there are changes: the epoch moves on. *)
  | Write i =>
      match k, e_pubs s i with
      | Metadata, POut => Some (mkE (e_value s) (e_epoch s + 1) (pub i (PHas (e_epoch s + 1))) (e_lis s), None)
      | _, _ => None
      end
  (* the store of update, and of EventPublisher::store_change
     (crates/fluvio-stream-model/src/store/event.rs 37-41). *)
  | Store i =>
      match e_pubs s i with
      | PHas v => Some (mkE v (e_epoch s) (pub i PStored) (e_lis s), None)
      | _ => None
      end
  | Notify i =>
      match e_pubs s i with
      | PStored => Some (mkE (e_value s) (e_epoch s) (pub i POut) (fun j => notified (e_lis s j)), None)
      | _ => None
      end
  | Listen j a =>
      match lstep k (e_value s) a (e_lis s j) with
      | Some (l, r) => Some (mkE (e_value s) (e_epoch s) (e_pubs s) (set (e_lis s) j l), option_map (pair j) r)
      | None => None
      end
  (* sync_changes_with_filter (dual_store.rs 515-536): the listener, which is not
     listening, takes the epoch of the store. *)
  | Sync j =>
      match k, l_at (e_lis s j) with
      | Metadata, LOut => Some (mkE (e_value s) (e_epoch s) (e_pubs s) (set (e_lis s) j (mkL (e_epoch s) LOut)), None)
      | _, _ => None
      end
  end.

(** * The replicas of which a follower is to be told *)

(** FollowerSpuPendingUpdates (crates/fluvio-spu/src/replication/leader/spu.rs
    82-112): a set of replicas, guarded by a lock, and an event.  [add] is taken in
    steps while it holds the lock: insert, load, store, notify and release.  The
    connection of the follower (FollowerHandler::inner_loop and
    update_from_leaders, connection.rs 58-154) listens, and when a call returns it
    drains the set; what it is told is the list [told].  It may handle a message
    between two calls, or in place of one that waits (Drop).  The counter is an
    unbounded number (i64 in the code: it takes 2^63 calls to see the difference). *)
Section Pending.
Context {R : Type} (req : R -> R -> bool).
Inductive where_a := AOut | AInserted | ALoaded (v : Z) | AStored.
Inductive where_h := HListen (l : listener) | HDrain (l : listener) | HGone.
Record pending := mkP {
  p_set : list R; p_value : Z; p_adder : option (task * where_a);
  p_handler : where_h; p_told : list R
}.
Definition new_pending : pending := mkP [] 0 None HGone [].
Inductive paction := Insert (i : task) (r : R) | PLoad | PStore | PNotify | Connect | HStep (a : listen_step) | Drain | Leave.
Definition insert_once (r : R) (l : list R) : list R := if existsb (req r) l then l else l ++ [r].
Definition pstep (s : pending) (a : paction) : option pending :=
  match a, p_adder s, p_handler s with
  (* add (spu.rs 93-98) *)
  | Insert i r, None, h => Some (mkP (insert_once r (p_set s)) (p_value s) (Some (i, AInserted)) h (p_told s))
  | PLoad, Some (i, AInserted), h => Some (mkP (p_set s) (p_value s) (Some (i, ALoaded (p_value s + 1))) h (p_told s))
  | PStore, Some (i, ALoaded v), h => Some (mkP (p_set s) v (Some (i, AStored)) h (p_told s))
  | PNotify, Some (i, AStored), h =>
      Some (mkP (p_set s) (p_value s) None
        match h with HListen l => HListen (notified l) | _ => h end (p_told s))
  (* connection.rs 72: a new listener *)
  | Connect, _, HGone => Some (mkP (p_set s) (p_value s) (p_adder s) (HListen new_listener) (p_told s))
  (* connection.rs 77-83 *)
  | HStep x, _, HListen l =>
      match lstep Offsets (p_value s) x l with
      | Some (l', Some _) => Some (mkP (p_set s) (p_value s) (p_adder s) (HDrain l') (p_told s))
      | Some (l', None) => Some (mkP (p_set s) (p_value s) (p_adder s) (HListen l') (p_told s))
      | None => None
      end
  (* drain_replicas (spu.rs 100-104), which needs the lock *)
  | Drain, None, HDrain l => Some (mkP [] (p_value s) None (HListen l) (p_told s ++ p_set s))
  (* the connection ends, between two calls or in place of one *)
  | Leave, _, HListen l =>
      match l_at l with
      | LOut | LWaiting _ => Some (mkP (p_set s) (p_value s) (p_adder s) HGone (p_told s))
      | _ => None
      end
  | _, _, _ => None
  end.
End Pending.
