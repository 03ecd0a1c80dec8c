(** What should hold of the table. *)
From Coq Require Import ZArith List Bool.
Import ListNotations.
From Verif Require Import Base TableModel.
Open Scope Z_scope.

(** both rows have the field, with the same text *)
Definition agree (k : Z) (a b : row) : Prop := exists v, get k a = Some v /\ get k b = Some v.
(** [new] is another version of the row [old] *)
Definition same_key (keys : list Z) (old new : row) : Prop := Forall (fun k => agree k old new) keys.
(** [new] takes the place of the first row of its key, or is appended *)
Inductive upserted (keys : list Z) (new : row) : list row -> list row -> Prop :=
| up_end : upserted keys new [] [new]
| up_here old t : same_key keys old new -> upserted keys new (old :: t) (new :: t)
| up_later old t t' : ~ same_key keys old new -> upserted keys new t t' -> upserted keys new (old :: t) (old :: t').
(** the columns that identify a row *)
Definition keys_of (t : table) : list Z := flat_map (fun c => match c_primary c with Some true => [c_key c] | _ => [] end) (t_cols t).
(** the last row with a text in a field *)
Fixpoint last_with (k v : Z) (l : list row) : option row :=
  match l with
  | [] => None
  | r :: t => match last_with k v t with Some x => Some x | None => if (match get k r with Some w => w =? v | None => false end) then Some r else None end
  end.
Definition has (k v : Z) (r : row) : bool := match get k r with Some w => w =? v | None => false end.
Definition sel_ok (t : table) : Prop := match t_sel t with Some s => (s < length (t_data t))%nat | None => True end.
Definition updates (t : table) (l : list row) : table := fold_left (fun t r => update_table_row r t) l t.
