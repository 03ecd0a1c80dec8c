(** What is expected of events and their listeners. *)
From Verif Require Import EventModel.

(** * Runs *)

Fixpoint exec (k : kind) (s : event) (l : list action) : option (event * list (task * Z)) :=
  match l with
  | [] => Some (s, [])
  | a :: l' =>
      match estep k s a with
      | Some (s', r) =>
          match exec k s' l' with
          | Some (s'', rs) => Some (s'', match r with Some x => x :: rs | None => rs end)
          | None => None
          end
      | None => None
      end
  end.
(** The states of an event that was created with value [v] (0 for sticky events
    and metadata). *)
Definition reachable (k : kind) (v : Z) (s : event) : Prop := exists l rs, exec k (new_event v) l = Some (s, rs).

(** * Listeners *)

(** The call awaits and has not been notified; it goes on only if someone
    notifies it. *)
Definition left_waiting (s : event) (j : task) : Prop := l_at (e_lis s j) = LWaiting false.
Definition last_seen (s : event) (j : task) : Z := l_last (e_lis s j).
(** A publisher has stored its value and not yet notified. *)
Definition publishing (s : event) : Prop := exists i, e_pubs s i = PStored.
(** Some task is in the middle of a publication. *)
Definition active (s : event) (i : task) : Prop := e_pubs s i <> POut.
Definition quiet (s : event) : Prop := forall i, ~ active s i.

(** In the rest of a run, nothing is published and [j] only listens. *)
Definition listening (j : task) (a : action) : Prop :=
  match a with
  | Listen i x => i = j -> x <> Drop
  | Sync i => i <> j
  | _ => False
  end.
(** No notification, and [j] does not give up. *)
Definition undisturbed (j : task) (a : action) : Prop :=
  match a with Notify _ => False | Listen i x => i = j -> x <> Drop | _ => True end.
Definition steps_of (j : task) (l : list action) : nat :=
  length (filter (fun a => match a with Listen i _ => Nat.eqb i j | _ => false end) l).

(** The values returned to a task. *)
Definition returned (j : task) (rs : list (task * Z)) : list Z := map snd (filter (fun r => Nat.eqb (fst r) j) rs).
(** The values that the event holds, from the first to the last. *)
Fixpoint held (k : kind) (s : event) (l : list action) : list Z :=
  e_value s ::
  match l with
  | [] => []
  | a :: l' => match estep k s a with Some (s', _) => held k s' l' | None => [] end
  end.
(** The first list is made of values of the second, in the same order (some may
    be skipped, or taken again). *)
Inductive follows : list Z -> list Z -> Prop :=
  | f_nil l : follows [] l
  | f_skip r x l : follows r l -> follows r (x :: l)
  | f_take r x l : follows r (x :: l) -> follows (x :: r) (x :: l).
Inductive rising : list Z -> Prop :=
  | r_nil : rising []
  | r_one x : rising [x]
  | r_more x y l : x <= y -> rising (y :: l) -> rising (x :: y :: l).

(** * Metadata: at most one task at a time changes the store *)

Inductive one_writer : event -> Prop :=
  | ow_new : one_writer (new_event 0)
  | ow_step s a s' r : one_writer s -> estep Metadata s a = Some (s', r) ->
      (forall i i', active s' i -> active s' i' -> i = i') -> one_writer s'.

(** * The replicas of which a follower is to be told *)

Section Pending.
Context {R : Type} (req : R -> R -> bool).
Fixpoint pexec (s : pending) (l : list (paction (R := R))) : option pending :=
  match l with
  | [] => Some s
  | a :: l' => match pstep req s a with Some s' => pexec s' l' | None => None end
  end.
Definition preachable (s : pending) : Prop := exists l, pexec new_pending l = Some s.
(** The connection goes on by itself. *)
Definition goes_on (a : paction (R := R)) : Prop := match a with HStep x => x <> Drop | Drain => True | _ => False end.
End Pending.
