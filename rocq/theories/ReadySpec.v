(** What should hold of the wait for the partitions of a topic. *)
From Coq Require Import ZArith List Bool.
Import ListNotations.
From Verif Require Import Base ReadyModel.
Open Scope Z_scope.

(** [ps] has [n] different partitions of the topic that are online, and [n] is not zero *)
Definition all_online (uid n : Z) (ps : list part) : Prop :=
  0 < n /\
  exists names, NoDup names /\ zlen names = n /\
    forall k, In k names -> exists p, In p ps /\ p_key p = k /\ p_owner p = Some uid /\ p_online p = true.

(** the names of the partitions of the topic that are online are [names] *)
Definition online_names (uid : Z) (ps : list part) (names : list Z) : Prop :=
  NoDup names /\
  forall k, In k names <-> exists p, In p ps /\ p_key p = k /\ p_owner p = Some uid /\ p_online p = true.

(** no partition belongs to the topic *)
Definition unowned (uid : Z) (ps : list part) : Prop := forall p, In p ps -> p_owner p <> Some uid.

(** the state after the first [length l1] events of a history [l], [l1] being its beginning *)
Definition moment (s0 : rstate) (l : list revent) (s : rstate) : Prop :=
  exists l1 l2, l = l1 ++ l2 /\ ready_run s0 l1 = Some s.

(** the request [w] is waiting for its answer *)
Definition pending (w : want) (s : rstate) : Prop :=
  match r_task s with Some (w', RDone _) => False | Some (w', _) => w' = w | None => False end.
Definition answered (w : want) (r : reply) (s : rstate) : Prop := r_task s = Some (w, RDone r).
(** what the request does by itself, its time not being up *)
Definition own (e : revent) : Prop := e = VStep \/ e = VWake.
