(** What a node should do with a partition, and the histories in which it does. *)
From Verif Require Import Base RoleModel.

Inductive role := Leads | Follows (leader : Z) | Nothing.

(** the part the metadata gives to node [me]; a partition that does not exist or
    is being deleted gives it none *)
Definition assigned (me : Z) (r : option rep) : role :=
  match r with
  | None => Nothing
  | Some r =>
      if r_deleting r then Nothing
      else if r_leader r =? me then Leads
      else if existsb (Z.eqb me) (r_replicas r) then Follows (r_leader r) else Nothing
  end.

(** the part the node plays *)
Definition plays (n : node) (k : Z) (p : role) : Prop :=
  match p with
  | Leads => n_lead n k = true /\ get (n_follow n) k = None
  | Follows l => n_lead n k = false /\ get (n_follow n) k = Some l
  | Nothing => n_lead n k = false /\ get (n_follow n) k = None
  end.

Definition involved (me : Z) (r : rep) : Prop := In me (r_replicas r).

Definition known (s : sys) (k : Z) : option rep := get (n_store (s_node s)) k.
Definition actual (s : sys) (k : Z) : option rep := get (s_truth s) k.

(** A history is orderly if, each time: a leader has a replica; no leader is
    elected for a partition that is being deleted; a partition is marked for
    deletion when the node knows its leader; a partition that is removed is known
    to the node, or the node has no files of it; a name is used again when the
    node has heard of the removal and none of its reports about it is on the way;
    the node stops when it only has files of partitions that exist, are not being
    deleted and have a replica on it; and its storage does not fail. *)
Definition orderly (me : Z) (s : sys) (e : event) : Prop :=
  match e with
  | Create k l rs _ => In l rs /\ known s k = None /\ ~ In k (n_out (s_node s))
  | Lead k l => forall r, actual s k = Some r -> In l (r_replicas r) /\ r_deleting r = false
  | Conf _ _ => True
  | Mark k => forall r, actual s k = Some r -> exists r', known s k = Some r' /\ r_leader r' = r_leader r
  | Remove k => known s k <> None \/ n_disk (s_node s) k = None
  | Confirmed => True
  | Sync bad => bad = []
  | Told _ bad => bad = []
  | Stop => forall k, n_disk (s_node s) k <> None -> exists r, actual s k = Some r /\ r_deleting r = false /\ involved me r
  | Write _ _ => True
  end.

Fixpoint orderly_run (me : Z) (s : sys) (es : list event) : Prop :=
  match es with [] => True | e :: es => orderly me s e /\ orderly_run me (sstep me s e) es end.
