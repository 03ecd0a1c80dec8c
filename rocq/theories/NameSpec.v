(** Decimal text, independently of the parser. *)
From Verif Require Import NameModel.

Definition is_digit (d : Z) : Prop := 48 <= d <= 57.
Definition dec_value (l : bytes) : Z := fold_left (fun a d => a * 10 + (d - 48)) l 0.

(** [s] is a decimal numeral for [n]: digits, at least one, possibly with a
    leading '+'. *)
Definition numeral (s : bytes) (n : Z) : Prop :=
  exists ds, (s = ds \/ s = 43 :: ds) /\ ds <> [] /\ Forall is_digit ds /\ dec_value ds = n.

(** No '-' in the text. *)
Definition no_dash (s : bytes) : Prop := ~ In 45 s.
Definition no_dot (s : bytes) : Prop := ~ In 46 s.
