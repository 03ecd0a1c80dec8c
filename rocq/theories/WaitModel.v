(** Requests that create, change or delete an object and wait until it is done.

    A request sends an action to the dispatcher of its kind of objects and waits for
    a change in the controller's store.  The dispatcher writes to the metadata
    storage of a local cluster; what is written there comes back to the dispatcher
    as an event, and the dispatcher changes the store.

    Simplifications: one kind of objects, without an owner; maps are functions; keys,
    specs and statuses are numbers; of the links between objects only the change of
    the revision is kept; writing a file does not fail; an action of the dispatcher
    is one step; the channel of actions (100 places) and the one of events are
    unbounded. *)
From Verif Require Import Base.

(** fluvio-stream-model/src/store/metadata.rs 12-24 with the revision of
    fluvio-stream-dispatcher/src/metadata/local.rs 7-15 *)
Record wobj := mkW { w_rev : Z; w_spec : Z; w_status : Z }.
Definition wmap := Z -> option wobj.
Definition upd {A} (m : Z -> A) (k : Z) (a : A) : Z -> A := fun k' => if k' =? k then a else m k'.

(** fluvio-stream-dispatcher/src/metadata/local.rs 299-303 *)
Inductive wevent := EMod (k : Z) (o : wobj) | EDel (k : Z).
(** the parts of WSAction used here: fluvio-stream-dispatcher/src/actions.rs 8-20 *)
Inductive waction := AUpdateSpec (k sp : Z) | AUpdateStatus (k st : Z) | ADelete (k : Z).

(** What a client asks for.
    [RCreate]: fluvio-sc/src/services/public_api/topic/create.rs 96-103, 214-228;
    [RPut]: public_api/smartmodule/create.rs 78-81, tableformat/create.rs 79;
    [RAdd]: public_api/topic/update/add_partition.rs 26-66, the spec is the number of partitions;
    [RDelete]: public_api/topic/delete.rs 48-91, delete.rs 121-131. *)
Inductive request := RCreate (sp : Z) | RPut (sp : Z) | RAdd (n : Z) | RDelete.
Inductive answer := AnsOk | AnsRefused | AnsTimeout.

(** Where a request is: [PNew] it has been received; [PRead a]: the handler has looked at
    the store; [PSend a seen]: the value that was there is known
    (fluvio-stream-dispatcher/src/store/mod.rs 246); [PCheck seen mark]: about to look for
    the change (255-266, 184-188), [mark] is what its listener has seen
    (fluvio-stream-model/src/store/dual_store.rs 434-439); [PWait]: in the select. *)
Inductive phase :=
| PNew
| PRead (a : waction)
| PSend (a : waction) (seen : option Z)
| PCheck (seen : option Z) (mark : Z)
| PWait (seen : option Z) (mark : Z)
| PDone (r : answer).
Record call := mkC { c_key : Z; c_req : request; c_phase : phase }.

Record waits := mkX {
  x_kv : wmap;                 (** the metadata storage *)
  x_events : list wevent;      (** on the way to the dispatcher *)
  x_store : wmap;              (** the controller's store *)
  x_epoch : Z;                 (** dual_store.rs: the last change that was published *)
  x_queue : list waction;      (** sent to the dispatcher *)
  x_calls : Z -> option call }.
Definition no_objects : waits := mkX (fun _ => None) [] (fun _ => None) 0 [] (fun _ => None).

(** fluvio-stream-dispatcher/src/metadata/local.rs 469-494 [apply] *)
Definition kv_put (kv : wmap) (k : Z) (o : wobj) : option wobj :=
  match kv k with
  | None => Some o
  | Some prev => if w_rev o <? w_rev prev then None else Some (mkW (w_rev prev + 1) (w_spec o) (w_status o))
  end.

(** fluvio-stream-model/src/store/metadata.rs 164-175, dual_epoch_map.rs 232-267,
    dual_store.rs 303-383, one update: the new store if anything changed *)
Definition store_mod (st : wmap) (k : Z) (o : wobj) : option wmap :=
  match st k with
  | None => Some (upd st k (Some o))
  | Some c =>
    if w_rev o <? w_rev c then None
    else if (w_rev c =? w_rev o) && (w_spec c =? w_spec o) && (w_status c =? w_status o) then None
    else Some (upd st k (Some o))
  end.
(** dual_store.rs 216-294 [sync_all], one key: what is older is ignored, what is not there is removed *)
Definition sync_key (new old : option wobj) : option wobj :=
  match new, old with
  | Some o, Some c => if w_rev o <? w_rev c then Some c else Some o
  | _, _ => new
  end.

(** fluvio-stream-dispatcher/src/dispatcher/metadata.rs 195-309 with local.rs:
    [update_spec] 179-203, [update_spec_by_key] 205-228, [update_status] 230-246,
    [delete_item] 140-154 *)
Definition dispatch (s : waits) (a : waction) (q : list waction) : waits :=
  let '(mkX kv ev st ep _ cs) := s in
  let write k o := match kv_put kv k o with
                   | None => mkX kv ev st ep q cs
                   | Some o' => mkX (upd kv k (Some o')) (ev ++ [EMod k o']) st ep q cs
                   end in
  match a with
  | AUpdateSpec k sp =>
    match st k, kv k with
    | Some so, Some ko => write k (mkW (w_rev so) sp (w_status ko))
    | Some so, None => write k (mkW (w_rev so) sp 0)
    | None, Some ko => write k (mkW (w_rev ko) sp (w_status ko))
    | None, None => write k (mkW 0 sp 0)
    end
  | AUpdateStatus k stt =>
    match st k, kv k with
    | Some so, Some ko =>
      match kv_put kv k (mkW (w_rev so) (w_spec ko) stt) with
      | None => mkX kv ev st ep q cs
      | Some o' =>
        match store_mod st k o' with
        | None => mkX (upd kv k (Some o')) (ev ++ [EMod k o']) st ep q cs
        | Some st' => mkX (upd kv k (Some o')) (ev ++ [EMod k o']) st' (ep + 1) q cs
        end
      end
    | _, _ => mkX kv ev st ep q cs
    end
  | ADelete k =>
    match st k, kv k with
    | Some _, Some _ => mkX (upd kv k None) (ev ++ [EDel k]) st ep q cs
    | _, _ => mkX kv ev st ep q cs
    end
  end.

(** What a handler does first: it looks at the store and makes the action. *)
Definition begin (st : wmap) (k : Z) (q : request) : phase :=
  match q with
  | RCreate sp => match st k with Some _ => PDone AnsRefused | None => PRead (AUpdateSpec k sp) end
  | RPut sp => PRead (AUpdateSpec k sp)
  | RAdd n => match st k with Some o => PRead (AUpdateSpec k (w_spec o + n)) | None => PDone AnsRefused end
  | RDelete => match st k with Some _ => PSend (ADelete k) None | None => PDone AnsRefused end
  end.
(** fluvio-stream-dispatcher/src/store/mod.rs 255-266, 184-188 *)
Definition found (st : wmap) (k : Z) (q : request) (seen : option Z) : bool :=
  match q, st k with
  | RDelete, None => true
  | RDelete, Some _ => false
  | _, None => false
  | _, Some o => match seen with None => true | Some r => r <? w_rev o end
  end.

Inductive wait_act :=
| WBegin (i k : Z) (q : request)   (** request [i] arrives *)
| WGo (i : Z)                      (** its next step, if it does not wait *)
| WWake (i : Z)                    (** its listener has seen a change: store/mod.rs 278-281, 199-203,
                                       fluvio-stream-model/src/store/dual_store.rs 450-452, 474-492, 515-538 *)
| WTimeout (i : Z)                 (** its timer: store/mod.rs 271-276, 193-198 *)
| WStatus (k st : Z)               (** a controller sends a status: store/mod.rs 296-301 *)
| WAct                             (** the dispatcher takes an action: dispatcher/metadata.rs 146-157 *)
| WEvent                           (** it takes an event: 128-144 *)
| WResync                          (** it syncs the store with the storage: 109-126, 167-192; events that are
                                       older are left out of the new stream (local.rs 496-516) *)
| WRelink (k : Z).                 (** the dispatcher of another kind adds or removes a child: local.rs 341-369 *)

Definition set_phase (s : waits) (i : Z) (c : call) (p : phase) : waits :=
  mkX (x_kv s) (x_events s) (x_store s) (x_epoch s) (x_queue s) (upd (x_calls s) i (Some (mkC (c_key c) (c_req c) p))).

Definition wstep (s : waits) (a : wait_act) : option waits :=
  match a with
  | WBegin i k q =>
    match x_calls s i with
    | Some _ => None
    | None => Some (mkX (x_kv s) (x_events s) (x_store s) (x_epoch s) (x_queue s) (upd (x_calls s) i (Some (mkC k q PNew))))
    end
  | WGo i =>
    match x_calls s i with
    | None => None
    | Some c =>
      match c_phase c with
      | PNew => Some (set_phase s i c (begin (x_store s) (c_key c) (c_req c)))
      | PRead a => Some (set_phase s i c (PSend a (option_map w_rev (x_store s (c_key c)))))
      | PSend a seen =>
        Some (mkX (x_kv s) (x_events s) (x_store s) (x_epoch s) (x_queue s ++ [a])
                (upd (x_calls s) i (Some (mkC (c_key c) (c_req c) (PCheck seen 0)))))
      | PCheck seen mark =>
        Some (set_phase s i c (if found (x_store s) (c_key c) (c_req c) seen then PDone AnsOk else PWait seen mark))
      | _ => None
      end
    end
  | WWake i =>
    match x_calls s i with
    | Some c => match c_phase c with
                | PWait seen mark => if mark <? x_epoch s then Some (set_phase s i c (PCheck seen (x_epoch s))) else None
                | _ => None
                end
    | None => None
    end
  | WTimeout i =>
    match x_calls s i with
    | Some c => match c_phase c with PWait _ _ => Some (set_phase s i c (PDone AnsTimeout)) | _ => None end
    | None => None
    end
  | WStatus k st =>
    Some (mkX (x_kv s) (x_events s) (x_store s) (x_epoch s) (x_queue s ++ [AUpdateStatus k st]) (x_calls s))
  | WAct => match x_queue s with [] => None | a :: q => Some (dispatch s a q) end
  | WEvent =>
    match x_events s with
    | [] => None
    | EMod k o :: t =>
      match store_mod (x_store s) k o with
      | None => Some (mkX (x_kv s) t (x_store s) (x_epoch s) (x_queue s) (x_calls s))
      | Some st => Some (mkX (x_kv s) t st (x_epoch s + 1) (x_queue s) (x_calls s))
      end
    | EDel k :: t => Some (mkX (x_kv s) t (upd (x_store s) k None) (x_epoch s + 1) (x_queue s) (x_calls s))
    end
  | WResync =>
    Some (mkX (x_kv s) [] (fun k => sync_key (x_kv s k) (x_store s k)) (x_epoch s + 1) (x_queue s) (x_calls s))
  | WRelink k =>
    match x_kv s k with
    | None => None
    | Some o => match kv_put (x_kv s) k o with
                | None => None
                | Some o' => Some (mkX (upd (x_kv s) k (Some o')) (x_events s ++ [EMod k o']) (x_store s) (x_epoch s) (x_queue s) (x_calls s))
                end
    end
  end.

Fixpoint wexec (s : waits) (l : list wait_act) : option waits :=
  match l with
  | [] => Some s
  | a :: t => match wstep s a with Some s' => wexec s' t | None => None end
  end.
