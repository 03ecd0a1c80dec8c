(** What it means that the controller's view of the servers is right. *)
From Verif Require Import Base EventModel HealthModel.

(** Server [k] has a connection that is being served. *)
Definition connected (s : health) (k : Z) : Prop := In (mkK k KServing) (h_conns s).
(** Server [k] has registered since the controller started. *)
Definition registered (s : health) (k : Z) : Prop := exists c, In c (h_conns s) /\ k_spu c = k.

(** Nothing is going on: no task is about to note something, and the SPU controller
    waits and has nothing to wake up for. *)
Definition at_rest (c : conn) : Prop := k_at c = KServing \/ k_at c = KEnded.
Definition quiet (s : health) : Prop :=
  Forall at_rest (h_conns s) /\
  h_at s = CListen /\ l_at (h_lis s) = LWaiting false /\ ~ h_seen s < h_epoch s.

(** The runs in which every state satisfies [P]. *)
Inductive runs (P : health -> Prop) (s : health) : health -> Prop :=
| runs_start : P s -> runs P s s
| runs_step : forall a s1 s2, runs P s s1 -> hstep s1 a = Some s2 -> P s2 -> runs P s s2.

(** Two increments of the counter do not overlap: between the load and the store of
    one there is no other. *)
Definition incrementing (s : health) (i : nat) : Prop :=
  exists k up v, nth_error (h_conns s) i = Some (mkK k (KStore up v)).
Definition one_increment (s : health) : Prop :=
  forall i j, incrementing s i -> incrementing s j -> i = j.

(** A server registers again only after the task of its last connection is done. *)
Definition live (s : health) (i : nat) (k : Z) : Prop :=
  exists w, nth_error (h_conns s) i = Some (mkK k w) /\ w <> KEnded.
Definition one_connection (s : health) : Prop :=
  forall i j k, live s i k -> live s j k -> i = j.

Definition orderly (s : health) : Prop := one_increment s /\ one_connection s.

(** Steps that happen by themselves: no server comes or goes. *)
Definition by_itself (a : haction) : Prop :=
  match a with HConnect _ | HEnd _ | HAdd _ | HRemove _ | HLate => False | _ => True end.

(** A run of such steps in which every state satisfies [P]. *)
Inductive settles (P : health -> Prop) (s : health) : health -> Prop :=
| settles_start : settles P s s
| settles_step : forall a s1 s2,
    settles P s s1 -> by_itself a -> hstep s1 a = Some s2 -> P s2 -> settles P s s2.

(** No server comes or goes, whatever else happens; [Q] holds from now on in every
    run of such steps. *)
Definition alone (a : haction) : Prop :=
  match a with HConnect _ | HEnd _ | HAdd _ | HRemove _ => False | _ => True end.
Definition for_good (s : health) (Q : health -> Prop) : Prop :=
  forall l s', Forall alone l -> hexec s l = Some s' -> Q s'.
