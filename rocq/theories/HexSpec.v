(** What a hex dump is: a table with sixteen bytes to a line. *)
From Coq Require Import ZArith List Bool.
Import ListNotations.
From Verif Require Import Base HexModel.
Local Open Scope Z_scope.

(** a digit has this value *)
Definition value_of (ch : Z) : option Z :=
  if (48 <=? ch) && (ch <=? 57) then Some (ch - 48) else if (97 <=? ch) && (ch <=? 102) then Some (ch - 87) else None.
(** a record: bytes, and at most 4 GiB of them *)
Definition record (r : list Z) : Prop := Forall (fun b => 0 <= b < 256) r /\ Z.of_nat (length r) <= 2 ^ 32.
(** the column of the [j]-th byte of a line, and of its character *)
Definition column (j : nat) : nat := (10 + 3 * j + (if Nat.ltb j 8 then 0 else 1))%nat.
Definition text_column (j : nat) : nat := (61 + j)%nat.
(** the character at column [p] of line [k]; lines have 79 characters with their end *)
Definition char_at (s : list Z) (k p : nat) : Z := nth (79 * k + p) s 0.
(** the number of lines for [n] bytes *)
Definition lines (n : nat) : nat := Nat.div (n + 15) 16.
(** the number that is written in the digits at the start of line [k] *)
Fixpoint number (l : list Z) (acc : Z) : option Z :=
  match l with [] => Some acc | ch :: t => match value_of ch with Some v => number t (16 * acc + v) | None => None end end.
