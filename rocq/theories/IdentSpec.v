(** What should hold of the ids of SPUs. *)
From Coq Require Import ZArith List Bool.
Import ListNotations.
From Verif Require Import Base NameModel IdentModel.
Open Scope Z_scope.

(** no id is used twice *)
Definition unique (w : world) : Prop := NoDup (map s_id (w_spus w)).

(** the ids of a group: as many as it has replicas, from its first id on *)
Definition has_id (g : group) (id : Z) : Prop := exists i, 0 <= i < g_replicas g /\ id = compute_spu_id (g_min g) i.
(** the names of its SPUs *)
Definition has_name (g : group) (name : bytes) : Prop := exists i, 0 <= i < g_replicas g /\ name = print_replica (g_name g) i.

(** Someone who takes care: groups are not changed, share no ids and no names with
    what there is, and custom SPUs stay away from the ids and names of groups and
    are registered one at a time. *)
Definition careful (w : world) (e : event) : Prop :=
  match e with
  | CreateGroup name replicas min =>
      let g := mkGroup 0 name replicas min Init in
      0 <= replicas < 2 ^ 16 /\ ~ In name (map g_name (w_groups w)) /\
      (forall h id, In h (w_groups w) -> has_id h id -> ~ has_id g id) /\
      (forall s, In s (w_spus w) -> ~ has_id g (s_id s) /\ ~ has_name g (s_name s)) /\
      (forall f, In f (w_flight w) -> ~ has_id g (snd f) /\ ~ has_name g (fst f))
  | Validate name id => w_flight w = [] /\ forall g, In g (w_groups w) -> ~ has_id g id /\ ~ has_name g name
  | _ => True
  end.
Fixpoint carefully (w : world) (l : list event) : Prop :=
  match l with [] => True | e :: r => careful w e /\ carefully (step w e) r end.

(** another one's SPU has an id of the group *)
Definition conflict (g : group) (spus : list spu) : Prop :=
  exists s, In s spus /\ s_owner s <> Some (g_uid g) /\ has_id g (s_id s).

(** a cluster without groups: what one does to its SPUs *)
Inductive op := Custom (name : bytes) (id : Z) | Remove (name : bytes) | Reported (id : Z) (up : bool) | Restarted.
Definition events (o : op) : list event :=
  match o with
  | Custom name id => [Validate name id; Register name id]
  | Remove name => [Unregister name]
  | Reported id up => [Health id up]
  | Restarted => [Restart]
  end.
