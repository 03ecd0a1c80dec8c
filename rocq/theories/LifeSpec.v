(** What should hold of the life of a local cluster. *)
From Coq Require Import ZArith List Bool.
Import ListNotations.
From Verif Require Import Base LifeModel.
Open Scope Z_scope.

Definition ans (s : home) (e : cmd) : answer := snd (life_step s e).
Definition after (s : home) (e : cmd) : home := fst (life_step s e).
Definition extends (a b : list Z) : Prop := exists d, b = a ++ d.
Definition running (c : conf) (s : home) : Prop := l_run s = Some c.
Definition installed (c : conf) (s : home) : Prop := l_conf s = Some c.
(** the current profile is of a cluster on this machine, with metadata on this machine *)
Definition on_local (s : home) : Prop := l_profile s = Some KLocal \/ l_profile s = Some KReadOnly.
(** a cluster whose servers are processes of this machine *)
Definition on_machine (s : home) : Prop := l_profile s = Some KLocal \/ l_profile s = Some KReadOnly \/ l_profile s = Some KLocalK8.
(** a config of a local cluster *)
Definition local_conf (c : conf) : Prop := f_kind c = KLocal \/ f_kind c = KReadOnly.
(** commands that leave the cluster as it is: working with it *)
Definition working (e : cmd) : Prop := exists d, e = Work d.
Definition no_delete (l : list cmd) : Prop := ~ In Delete l.
