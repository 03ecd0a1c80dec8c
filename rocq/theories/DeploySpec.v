(** What should hold of connectors on this machine. *)
From Coq Require Import ZArith List Bool.
Import ListNotations.
From Verif Require Import Base NameModel DeployModel.
Open Scope Z_scope.

Definition ans (m : machine) (c : cmd) : answer := snd (deploy_step m c).
Definition after (m : machine) (c : cmd) : machine := fst (deploy_step m c).
Definition names (m : machine) : list text := map e_name (load m).
Definition listed (n : text) (m : machine) : Prop := In n (names m).
Definition pids (m : machine) : list Z := map e_pid (load m).
(** a process that starts gets an id that no process has and that is not in the
    index: ids are not used again *)
Definition new_pid (m : machine) (c : cmd) : Prop :=
  match c with Start _ p _ | Foreign p => x_proc m p = None /\ ~ In p (pids m) | _ => True end.
Fixpoint new_pids (m : machine) (l : list cmd) : Prop :=
  match l with [] => True | c :: t => new_pid m c /\ new_pids (after m c) t end.
(** the index points to connectors of the name it says, or to nothing *)
Definition true_index (m : machine) : Prop :=
  forall e w, In e (load m) -> x_proc m (e_pid e) = Some w -> exists r, w = Conn r (e_name e).
Definition no_dot (n : text) : Prop := ~ In 46 n.
(** the commands of the user, and what connectors do *)
Definition ordinary (c : cmd) : Prop := match c with Spoil => False | _ => True end.
