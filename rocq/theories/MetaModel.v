(** Model of the metadata stores of the controller (SC) and of their watchers:
    the clients that watch objects, and the SPUs that are sent them.
    Source: crates/fluvio-stream-model/src/epoch/epoch_map.rs,
            crates/fluvio-stream-model/src/epoch/dual_epoch_map.rs,
            crates/fluvio-stream-model/src/store/metadata.rs,
            crates/fluvio-stream-model/src/store/dual_store.rs,
            crates/fluvio-sc/src/services/public_api/watch.rs,
            crates/fluvio-sc/src/services/private_api/private_server.rs,
            crates/fluvio/src/sync/controller.rs,
            crates/fluvio-spu/src/core/store.rs,
            crates/fluvio-spu/src/control_plane/dispatcher.rs

    Simplifications, for the whole file:
    - every call is executed as a whole (writes hold the write lock of the
      store, a look at the changes holds its read lock); the interleavings of
      the notifications are modelled in EventModel;
    - a [HashMap] is a list of its entries with distinct keys; the order in
      which a watcher is given updates and deletes is left to MetaSpec;
    - epochs and counts are unbounded numbers ([i64] and [i32] in the code: it
      takes 2^31 changes in one call, or 2^63 calls, to see the difference);
    - logging is left out. *)
From Coq Require Export ZArith List Bool.
Export ListNotations.
Open Scope Z_scope.

(** The types of keys, specs, statuses and metadata items with their
    [PartialEq], and [MetadataItem::is_newer]; core.rs:10-20, 161-175 *)
Record ops (K S T I : Type) := mkOps {
  keq : K -> K -> bool;
  seq : S -> S -> bool;
  teq : T -> T -> bool;
  ieq : I -> I -> bool;
  newer : I -> I -> bool
}.
Arguments keq {K S T I}. Arguments seq {K S T I}. Arguments teq {K S T I}. Arguments ieq {K S T I}. Arguments newer {K S T I}.

Section Meta.
Context {K S T I : Type} (o : ops K S T I).

(** [HashMap] operations *)
Fixpoint lookup {A} (k : K) (l : list (K * A)) : option A :=
  match l with
  | [] => None
  | (k', a) :: l' => if keq o k k' then Some a else lookup k l'
  end.
Fixpoint insert {A} (k : K) (a : A) (l : list (K * A)) : list (K * A) :=
  match l with
  | [] => [(k, a)]
  | (k', a') :: l' => if keq o k k' then (k, a) :: l' else (k', a') :: insert k a l'
  end.
Definition erase {A} (k : K) (l : list (K * A)) : list (K * A) := filter (fun e => negb (keq o k (fst e))) l.

(** * Objects and their changes *)

(** [MetadataStoreObject], metadata.rs:13-23; of [MetadataContext] its item
    (core.rs:78-80) *)
Record object := mkObject { o_key : K; o_spec : S; o_status : T; o_item : I }.

(** [ChangeFlag], dual_epoch_map.rs:42-76, and the filters 22-38 *)
Record flag := mkFlag { f_spec : bool; f_status : bool; f_meta : bool }.
Definition full : flag := mkFlag true true true.
Definition has_no_changes (d : flag) : bool := negb (f_spec d) && negb (f_status d) && negb (f_meta d).

(** [MetadataStoreObject::diff], metadata.rs:164-175 *)
Definition diff (old new : object) : flag :=
  if newer o (o_item old) (o_item new) then mkFlag false false false
  else mkFlag (negb (seq o (o_spec old) (o_spec new)))
              (negb (teq o (o_status old) (o_status new)))
              (negb (ieq o (o_item old) (o_item new))).

(** [DualEpochCounter], dual_epoch_map.rs:80-86 *)
Record counted := mkCounted { d_spec : Z; d_status : Z; d_meta : Z; d_inner : object }.

(** [DualEpochMap], dual_epoch_map.rs:167-173 *)
Record dmap := mkDmap { m_epoch : Z; m_fence : Z; m_values : list (K * counted); m_deleted : list counted }.
Definition set_values (m : dmap) (v : list (K * counted)) : dmap := mkDmap (m_epoch m) (m_fence m) v (m_deleted m).
Definition set_epoch (m : dmap) (e : Z) : dmap := mkDmap e (m_fence m) (m_values m) (m_deleted m).

(** [update], dual_epoch_map.rs:232-267; every caller passes the key of the
    object (dual_store.rs:234-237, 320-322) *)
Definition update (m : dmap) (v : object) : dmap * option flag :=
  let e := m_epoch m in
  match lookup (o_key v) (m_values m) with
  | Some c =>
      let d := diff (d_inner c) v in
      if has_no_changes d then (m, Some d)
      else
        (set_values m
           (insert (o_key v)
              (mkCounted (if f_spec d then e else d_spec c)
                         (if f_status d then e else d_status c)
                         (if f_meta d then e else d_meta c) v) (m_values m)), Some d)
  | None => (set_values m (insert (o_key v) (mkCounted e e e v) (m_values m)), None)
  end.

(** [remove], dual_epoch_map.rs:271-284 *)
Definition remove (m : dmap) (k : K) : dmap * option counted :=
  match lookup k (m_values m) with
  | Some c =>
      let c' := mkCounted (m_epoch m) (m_epoch m) (m_epoch m) (d_inner c) in
      (mkDmap (m_epoch m) (m_fence m) (erase k (m_values m)) (m_deleted m ++ [c']), Some c')
  | None => (m, None)
  end.

(** [mark_fence], dual_epoch_map.rs:288-291 *)
Definition mark_fence (m : dmap) : dmap := mkDmap (m_epoch m) (m_epoch m) (m_values m) [].

(** [EpochChanges] and [EpochDeltaChanges], epoch_map.rs:252-330 *)
Inductive delta := SyncAll (all : list object) | Changes (updates deletes : list object).
Record changes := mkChanges { c_epoch : Z; c_delta : delta }.
Definition is_empty (c : changes) : bool :=
  match c_delta c with
  | SyncAll [] | Changes [] [] => true
  | _ => false
  end.

(** [changes_since_with_filter], dual_epoch_map.rs:352-397 *)
Definition after (f : flag) (e : Z) (c : counted) : bool :=
  f_spec f && (e <? d_spec c) || f_status f && (e <? d_status c) || f_meta f && (e <? d_meta c).
Definition changes_since (f : flag) (m : dmap) (e : Z) : changes :=
  if e <? m_fence m then mkChanges (m_epoch m) (SyncAll (map (fun x => d_inner (snd x)) (m_values m)))
  else if e =? m_epoch m then mkChanges (m_epoch m) (Changes [] [])
  else mkChanges (m_epoch m)
         (Changes (map (fun x => d_inner (snd x)) (filter (fun x => after f e (snd x)) (m_values m)))
                  (map d_inner (filter (after f e) (m_deleted m)))).

(** * The store *)

(** [LocalStore], dual_store.rs:29-37: the map, and the epoch last published
    by [EventPublisher] (store/event.rs:10-47) *)
Record store := mkStore { st_map : dmap; st_change : Z }.
(** [LocalStore::default], dual_store.rs:39-50 *)
Definition new_store : store := mkStore (mkDmap 0 0 [] []) 0.

(** [LSUpdate], store/actions.rs:10-19 *)
Inductive lsupdate := Mod (v : object) | Delete (k : K).

(** the counters of [sync_all] and [apply_changes]; [SyncStatus],
    dual_store.rs:189-196 *)
Record tally := mkTally { t_add : Z; t_spec : Z; t_status : Z; t_meta : Z; t_delete : Z }.
Definition zero : tally := mkTally 0 0 0 0 0.
Definition one (b : bool) : Z := if b then 1 else 0.

(** the counting of one update, dual_store.rs:237-249, 322-338 *)
Definition count_update (t : tally) (r : option flag) : tally :=
  match r with
  | Some d => mkTally (t_add t) (t_spec t + one (f_spec d)) (t_status t + one (f_status d)) (t_meta t + one (f_meta d)) (t_delete t)
  | None => mkTally (t_add t + 1) (t_spec t) (t_status t) (t_meta t) (t_delete t)
  end.
Definition count_delete (t : tally) : tally :=
  mkTally (t_add t) (t_spec t) (t_status t) (t_meta t) (t_delete t + 1).

(** the body of the loop of [apply_changes], dual_store.rs:317-345 *)
Definition apply_item (x : dmap * tally) (u : lsupdate) : dmap * tally :=
  match u with
  | Mod v => let '(m, r) := update (fst x) v in (m, count_update (snd x) r)
  | Delete k => (fst (remove (fst x) k), count_delete (snd x))
  end.
Definition all_zero (t : tally) : bool :=
  (t_add t =? 0) && (t_spec t =? 0) && (t_status t =? 0) && (t_delete t =? 0) && (t_meta t =? 0).

(** [apply_changes], dual_store.rs:303-386 *)
Definition apply_changes (st : store) (us : list lsupdate) : store * option (Z * tally) :=
  let m := st_map st in
  let '(m1, t) := fold_left apply_item us (set_epoch m (m_epoch m + 1), zero) in
  if all_zero t then (mkStore (set_epoch m1 (m_epoch m1 - 1)) (st_change st), None)
  else (mkStore m1 (m_epoch m1), Some (m_epoch m1, t)).

(** the loop of [sync_all] over what came in, dual_store.rs:233-253: the
    objects, the counts and the local keys not seen *)
Definition sync_item (x : dmap * tally * list K) (v : object) : dmap * tally * list K :=
  let '(m, t, ks) := x in
  let '(m', r) := update m v in
  (m', count_update t r, filter (fun k => negb (keq o (o_key v) k)) ks).
(** the loop over the keys left, dual_store.rs:256-266 *)
Definition sync_delete (x : dmap * tally) (k : K) : dmap * tally :=
  match remove (fst x) k with
  | (m, Some _) => (m, count_delete (snd x))
  | (m, None) => (m, snd x)
  end.
(** [sync_all], dual_store.rs:216-295 *)
Definition sync_all (st : store) (vs : list object) : store * (Z * tally) :=
  let m := st_map st in
  let '(m1, t1, ks) := fold_left sync_item vs (set_epoch m (m_epoch m + 1), zero, map fst (m_values m)) in
  let '(m2, t2) := fold_left sync_delete ks (m1, t1) in
  let m3 := mark_fence m2 in
  (mkStore m3 (m_epoch m3), (m_epoch m3, t2)).

(** [has_change] and [sync_changes_with_filter] of a [ChangeListener] with this
    [last_change] (0 when it is new), dual_store.rs:425-444, 503-530: the
    changes, and the new [last_change] *)
Definition has_change (st : store) (last : Z) : bool := last <? st_change st.
Definition look (f : flag) (st : store) (last : Z) : changes * Z :=
  let c := changes_since f (st_map st) last in (c, c_epoch c).

(** [wait_for_initial_sync] when it is woken, dual_store.rs:540-551: [None] for
    the panic of the assertion *)
Definition initial_sync (st : store) (last : Z) : option (list object) :=
  match c_delta (fst (look full st last)) with SyncAll all => Some all | Changes _ _ => None end.

(** * What is sent to watchers *)

(** [MsgType] and [Message], controlplane-metadata/src/message/msg_type.rs:17-31;
    [MetadataUpdate] and the requests to SPUs: an epoch, everything, or
    changes *)
Inductive msg_type := UPDATE | DELETE.
Record message (V : Type) := mkMessage { g_epoch : Z; g_all : list V; g_changes : list (msg_type * V) }.

(** [sync_and_send_changes], watch.rs:180-210, with [conv] the conversion of an
    update ([Metadata] and its summary) and [convd] that of a delete *)
Definition watch_message {V} (conv convd : object -> V) (c : changes) : message V :=
  match c_delta c with
  | SyncAll all => mkMessage V (c_epoch c) (map conv all) []
  | Changes us ds =>
      mkMessage V (c_epoch c) [] (map (fun u => (UPDATE, conv u)) us ++ map (fun d => (DELETE, convd d)) ds)
  end.

(** [send_spu_spec_changes], [send_replica_spec_changes],
    [send_smartmodule_changes] and [send_mirror_changes],
    private_server.rs:383-606: the four differ in the filter [f] and in the
    conversion.  [None]: nothing is sent *)
Definition spu_message {V} (f : flag) (conv : object -> V) (st : store) (last : Z) : option (message V) * Z :=
  if has_change st last then
    let '(c, last') := look f st last in
    if is_empty c then (None, last') else (Some (watch_message conv conv c), last')
  else (None, last).

(** [LocalStore] of an SPU, spu/src/core/store.rs:97-104, 143-250: the objects
    without epochs.  The actions it returns are left out, and so is that the
    key of an SPU in it is its id: ids and names are taken to correspond *)
Definition spu_sync_all {V} (key : V -> K) (s : list (K * V)) (all : list V) : list (K * V) :=
  let s1 := fold_left (fun a v => insert (key v) v a) all s in
  let left := filter (fun k => negb (existsb (fun v => keq o k (key v)) all)) (map fst s) in
  fold_left (fun a k => erase k a) left s1.
Definition spu_apply {V} (key : V -> K) (s : list (K * V)) (cs : list (msg_type * V)) : list (K * V) :=
  fold_left (fun a c => match fst c with UPDATE => insert (key (snd c)) (snd c) a | DELETE => erase (key (snd c)) a end) cs s.
(** [handle_update_spu_request] and the like, dispatcher.rs:356-470, and
    [LocalStore::apply], store.rs:129-138 *)
Definition spu_receive {V} (key : V -> K) (s : list (K * V)) (g : message V) : list (K * V) :=
  match g_all V g with
  | [] => spu_apply key s (g_changes V g)
  | all => spu_sync_all key s all
  end.

End Meta.
Arguments object : clear implicits. Arguments lsupdate : clear implicits. Arguments store : clear implicits.
Arguments counted : clear implicits. Arguments dmap : clear implicits. Arguments changes : clear implicits.
Arguments g_epoch {V}. Arguments g_all {V}. Arguments g_changes {V}.

Section Client.
Context {K S T I : Type} (o : ops K S T I).

(** [Metadata], fluvio-sc-schema/src/objects/metadata.rs:26-86: name, spec and
    status; the metadata item is not sent, and what the client stores has the
    default one, which is not newer than itself (metadata/local.rs:24-26).
    Keys are taken to be readable back from their printed form.  [summ] is the
    identity or [AdminSpec::summary]; deletes are not summarised
    (watch.rs:203-206) *)
Definition metadata : Type := (K * S * T)%type.
Definition to_metadata (summ : S -> S) (v : object K S T I) : metadata := (o_key v, summ (o_spec v), o_status v).
Definition of_metadata (d : metadata) : object K S T unit := mkObject (fst (fst d)) (snd (fst d)) (snd d) tt.
Definition client_ops : ops K S T unit :=
  mkOps K S T unit (keq o) (seq o) (teq o) (fun _ _ => true) (fun _ _ => false).

(** [sync_metadata], fluvio/src/sync/controller.rs:149-206 *)
Definition client_receive (s : store K S T unit) (g : message metadata) : store K S T unit :=
  match g_all g with
  | [] =>
      match g_changes g with
      | [] => s
      | cs => fst (apply_changes client_ops s
                     (map (fun c => match fst c with
                                    | UPDATE => Mod (of_metadata (snd c))
                                    | DELETE => Delete (o_key (of_metadata (snd c)))
                                    end) cs))
      end
  | all => fst (sync_all client_ops s (map of_metadata all))
  end.

End Client.
