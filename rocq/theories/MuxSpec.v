(** What is expected of a shared connection and of the versions of requests. *)
From Verif Require Import MuxModel.

(** * Versions *)

(** The server supports version [v] for requests with this key. *)
Definition supports (table : list version_key) (key v : Z) : Prop :=
  exists e, In e table /\ v_key e = key /\ v_min e <= v <= v_max e.
(** Every range has a version, and there is one range for a key. *)
Definition proper (table : list version_key) : Prop :=
  NoDup (map v_key table) /\ forall e, In e table -> v_min e <= v_max e.

(** * The connection *)

Section Mux.
Context {B : Type}.
Notation mux := (mux B).

(** The states that are reached by steps that are all allowed. *)
Inductive runs (allowed : mux -> maction B -> Prop) : mux -> Prop :=
  | runs_new : runs allowed new_mux
  | runs_step s a s' : runs allowed s -> allowed s a -> mstep s a = Some s' -> runs allowed s'.
(** Anything can come over the connection; or only frames that answer a request
    that was sent. *)
Definition anything (s : mux) (a : maction B) : Prop := True.
Definition answers (s : mux) (a : maction B) : Prop :=
  match a with Frame i _ => exists r, In (i, r) (x_sent s) | _ => True end.

(** The request was made; what it was given. *)
Definition made (s : mux) (r : task) : Prop := q_at (x_reqs s r) <> QNone.
Fixpoint somes {A} (l : list (option A)) : list A :=
  match l with [] => [] | Some a :: l' => a :: somes l' | None :: l' => somes l' end.
Definition given (s : mux) (r : task) : list B :=
  match q_at (x_reqs s r) with QDone (Response b) => [b] | _ => [] end ++ somes (q_got (x_reqs s r)).

(** The ids are 32 bits wide. *)
Definition few (s : mux) : Prop := x_started s <= 2 ^ 32.

(** The responses that came with an id, in order. *)
Definition came (s : mux) (i : Z) : list B := map snd (filter (fun f => fst f =? i) (x_frames s)).
(** The response that waits for room in the queue of [r]. *)
Definition held_back (s : mux) (r : task) : list B :=
  match x_disp s with DBlocked r' b => if Nat.eqb r' r then [b] else [] | _ => [] end.
(** The connection is open. *)
Definition is_open (s : mux) : Prop := match x_disp s with DIdle | DBlocked _ _ => True | _ => False end.
Definition last_of {A} (l : list A) : option A := hd_error (rev l).

(** A stream does not take what came. *)
Definition full (s : mux) (r : task) : Prop :=
  is_queue (x_reqs s r) = true /\ q_closed (x_reqs s r) = false /\ room (x_reqs s r) = false.
(** A request that is to be registered, or was sent and has no outcome yet. *)
Definition waits (w : where_q (B := B)) : Prop := match w with QHasId | QWaiting | QWoken | QTimingOut => True | _ => False end.
(** The steps of the dispatcher itself. *)
Definition of_dispatcher (a : maction B) : Prop := match a with Unblock | CloseNext => True | _ => False end.
Fixpoint mexec (s : mux) (l : list (maction B)) : option mux :=
  match l with [] => Some s | a :: l' => match mstep s a with Some s' => mexec s' l' | None => None end end.
End Mux.
