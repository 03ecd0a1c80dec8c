(** What C102 says: profiles of the client. *)
Require Import List. Import ListNotations.
From Verif Require Import Base ProfileModel.

(** The cluster a command goes to with no options, and with -P [p] *)
Definition default (f : file) : found := target None None Disabled f.
Definition named (p : Z) (f : file) : found := target (Some p) None Disabled f.
(** The current profile *)
Definition current (f : file) : option Z := match f with Holds g => g_current g | _ => None end.
(** The cluster a profile names *)
Definition names (f : file) (p c : Z) : Prop := exists g q, f = Holds g /\ get p (g_profiles g) = Some q /\ f_cluster q = c.
Definition exists_profile (f : file) (p : Z) : Prop := exists c, names f p c.
Definition exists_cluster (f : file) (c : Z) : Prop := exists g x, f = Holds g /\ get c (g_clusters g) = Some x.

(** Commands that were not made to delete a cluster that is in use, and writes that
    were not cut off *)
Definition gentle (e : command * write) : Prop :=
  (match fst e with DeleteCluster _ force => force = false | _ => True end) /\ snd e <> Cut.
