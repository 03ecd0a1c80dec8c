(** What is expected of the metadata stores and of their watchers. *)
From Coq Require Export Permutation.
From Verif Require Import MetaModel.

(** The comparisons decide equality. *)
Record lawful {K S T I} (o : ops K S T I) : Prop := {
  keq_ok : forall a b, keq o a b = true <-> a = b;
  seq_ok : forall a b, seq o a b = true <-> a = b;
  teq_ok : forall a b, teq o a b = true <-> a = b;
  ieq_ok : forall a b, ieq o a b = true <-> a = b
}.

Section Meta.
Context {K S T I : Type} (o : ops K S T I).
Notation object := (object K S T I).
Notation lsupdate := (lsupdate K S T I).
Notation store := (store K S T I).
Notation changes := (changes K S T I).

(** * What a store holds *)

(** The objects, by key. *)
Definition view (V : Type) := K -> option V.
Definition same {V} (a b : view V) : Prop := forall k, a k = b k.
Definition contents (st : store) : view object := fun k => option_map d_inner (lookup o k (m_values (st_map st))).

(** An update replaces the object unless the one that is there is newer; a
    delete removes it; a full sync updates and removes what it does not name. *)
Definition effect (s : view object) (u : lsupdate) : view object := fun k =>
  match u with
  | Mod v =>
      if keq o k (o_key v) then
        match s k with
        | Some old => if newer o (o_item old) (o_item v) then Some old else Some v
        | None => Some v
        end
      else s k
  | Delete k' => if keq o k k' then None else s k
  end.
Definition effects (s : view object) (us : list lsupdate) : view object := fold_left effect us s.
Definition named (k : K) (vs : list object) : bool := existsb (fun v => keq o k (o_key v)) vs.
Definition full_effect (s : view object) (vs : list object) : view object := fun k =>
  if named k vs then effects s (map Mod vs) k else None.

(** The calls, and the histories of a store. *)
Inductive call := Apply (us : list lsupdate) | Full (vs : list object).
Definition do_call (st : store) (c : call) : store :=
  match c with Apply us => fst (apply_changes o st us) | Full vs => fst (sync_all o st vs) end.
Definition do_calls (st : store) (cs : list call) : store := fold_left do_call cs st.
Definition reachable (st : store) : Prop := exists cs, st = do_calls new_store cs.
Definition call_effect (s : view object) (c : call) : view object :=
  match c with Apply us => effects s us | Full vs => full_effect s vs end.

(** The updates of a history, if it has no full sync. *)
Fixpoint updates_of (cs : list call) : option (list lsupdate) :=
  match cs with
  | [] => Some []
  | Apply us :: cs' => option_map (app us) (updates_of cs')
  | Full _ :: _ => None
  end.

(** While these updates were made one after the other, starting from [s]: the
    key was deleted at some time when it held [v]; *)
Definition deleted (s : view object) (us : list lsupdate) (k : K) (v : object) : Prop :=
  exists us1 u us2, us = us1 ++ u :: us2 /\ effects s us1 k = Some v /\ effects s (us1 ++ [u]) k = None.
(** it was deleted and is there at the end; *)
Definition recreated (s : view object) (us : list lsupdate) (k : K) : Prop :=
  (exists v, deleted s us k v) /\ effects s us k <> None.
(** some part of it (of those that [f] watches) was not the same before and
    after an update, or it was not there before the update, or not after it. *)
Definition parts_of (f : flag) (v : object) : option S * option T * option I :=
  (if f_spec f then Some (o_spec v) else None,
   if f_status f then Some (o_status v) else None,
   if f_meta f then Some (o_item v) else None).
Definition watches (f : flag) : bool := f_spec f || f_status f || f_meta f.
Definition altered (f : flag) (s : view object) (us : list lsupdate) (k : K) : Prop :=
  exists us1 u us2, us = us1 ++ u :: us2
    /\ option_map (parts_of f) (effects s us1 k) <> option_map (parts_of f) (effects s (us1 ++ [u]) k).
(** Nothing changes: every update leaves every object as it is. *)
Definition idle (s : view object) (us : list lsupdate) : Prop :=
  forall us1 us2, us = us1 ++ us2 -> same (effects s us1) s.

(** * Watchers *)

(** The order in which a watcher is given updates and deletes is not known. *)
Inductive shuffled : changes -> changes -> Prop :=
  | sh_all e l l' : Permutation l l' -> shuffled (mkChanges e (SyncAll l)) (mkChanges e (SyncAll l'))
  | sh_changes e u u' d d' : Permutation u u' -> Permutation d d' ->
      shuffled (mkChanges e (Changes u d)) (mkChanges e (Changes u' d')).

(** A client that watches: the position of the listener that the controller
    keeps for it, and its own store. *)
Definition client := (Z * MetaModel.store K S T unit)%type.
Definition new_client : client := (0, new_store).
Inductive client_looks (summ : S -> S) (st : store) : client -> client -> Prop :=
  | cl_look last s c' : shuffled (fst (look full st last)) c' ->
      client_looks summ st (last, s)
        (snd (look full st last), client_receive o s (watch_message (to_metadata summ) (to_metadata (fun x => x)) c')).
(** What it shows: specs (or their summaries) and statuses. *)
Definition client_view (w : client) : view (S * T) := fun k =>
  option_map (fun v => (o_spec v, o_status v)) (option_map d_inner (lookup o k (m_values (st_map (snd w))))).
Definition shown (summ : S -> S) (v : object) : S * T := (summ (o_spec v), o_status v).

(** An SPU that is sent objects converted by [conv]. *)
Definition spu V := (Z * list (K * V))%type.
Definition new_spu {V} : spu V := (0, []).
Inductive spu_looks {V} (f : flag) (conv : object -> V) (key : V -> K) (st : store) : spu V -> spu V -> Prop :=
  | sl_skip last s : has_change st last = false -> spu_looks f conv key st (last, s) (last, s)
  | sl_empty last s : has_change st last = true -> is_empty (fst (look f st last)) = true ->
      spu_looks f conv key st (last, s) (snd (look f st last), s)
  | sl_look last s c' : has_change st last = true -> is_empty (fst (look f st last)) = false ->
      shuffled (fst (look f st last)) c' ->
      spu_looks f conv key st (last, s) (snd (look f st last), spu_receive o key s (watch_message conv conv c')).
Definition spu_view {V} (w : spu V) : view V := fun k => lookup o k (snd w).
(** What an SPU is sent depends on the watched parts only, and holds the key. *)
Definition fit {V} (f : flag) (conv : object -> V) (key : V -> K) : Prop :=
  (forall v, key (conv v) = o_key v)
  /\ (forall v v', o_key v = o_key v' -> parts_of f v = parts_of f v' -> conv v = conv v').

(** What a watcher should show; and: it has looked at this state of the store
    (a new watcher has in effect looked at the new store). *)
Definition seen {V} (conv : object -> V) (st : store) : view V := fun k => option_map conv (contents st k).
Definition looked {A} (w : Z * A) (st : store) : Prop := fst w = m_epoch (st_map st).

(** When a watcher looks after these calls, it misses nothing: after a full
    sync, the store is not empty (or the watcher showed nothing); otherwise, no
    key was deleted and re-created. *)
Definition nothing {V} (a : view V) : Prop := forall k, a k = None.
Definition undisturbed {V} (shows : view V) (st : store) (cs : list call) : Prop :=
  match updates_of cs with
  | None => nothing (contents (do_calls st cs)) -> nothing shows
  | Some us => forall k, ~ recreated (contents st) us k
  end.

(** The histories of a client and of an SPU: a store, the calls, and the looks. *)
Inductive client_runs (summ : S -> S) : store -> client -> Prop :=
  | cr_new : client_runs summ new_store new_client
  | cr_call st w c : client_runs summ st w -> client_runs summ (do_call st c) w
  | cr_look st w w' : client_runs summ st w -> client_looks summ st w w' -> client_runs summ st w'.
Inductive spu_runs {V} (f : flag) (conv : object -> V) (key : V -> K) : store -> spu V -> Prop :=
  | sr_new : spu_runs f conv key new_store new_spu
  | sr_call st w c : spu_runs f conv key st w -> spu_runs f conv key (do_call st c) w
  | sr_look st w w' : spu_runs f conv key st w -> spu_looks f conv key st w w' -> spu_runs f conv key st w'.

(** The histories in which every look misses nothing. *)
Inductive client_calm (summ : S -> S) : store -> client -> Prop :=
  | cc_new : client_calm summ new_store new_client
  | cc_look st w cs w' : client_calm summ st w -> undisturbed (client_view w) st cs ->
      client_looks summ (do_calls st cs) w w' -> client_calm summ (do_calls st cs) w'.
Inductive spu_calm {V} (f : flag) (conv : object -> V) (key : V -> K) : store -> spu V -> Prop :=
  | sc_new : spu_calm f conv key new_store new_spu
  | sc_look st w cs w' : spu_calm f conv key st w -> undisturbed (spu_view w) st cs ->
      spu_looks f conv key (do_calls st cs) w w' -> spu_calm f conv key (do_calls st cs) w'.

(** The deletes first, then the updates. *)
Definition in_order {V} (conv : object -> V) (shows : view V) (c : changes) : view V := fun k =>
  match c_delta c with
  | SyncAll all => option_map conv (find (fun v => keq o k (o_key v)) all)
  | Changes us ds =>
      match find (fun v => keq o k (o_key v)) us with
      | Some v => Some (conv v)
      | None => if existsb (fun v => keq o k (o_key v)) ds then None else shows k
      end
  end.

End Meta.
