(** What C103 and C104 say: the commands that produce and consume. *)
Require Import List. Import ListNotations.
From Verif Require Import Base CliModel.

(** A line of text: no newline in it, UTF-8, and no carriage return at its end *)
Definition line (l : bytes) : Prop := ~ In nl l /\ utf8 l = true /\ forall a, l <> a ++ [cr].
(** The text that consists of some lines *)
Definition text (ls : list bytes) : bytes := concat (map (fun l => l ++ [nl]) ls).

(** [a] and [v] are what is in front of and behind the first separator *)
Definition divided (s l a v : bytes) : Prop :=
  l = a ++ s ++ v /\ forall a' v', l = a' ++ s ++ v' -> zlen a <= zlen a'.
(** The record that a line is meant to become *)
Inductive meant : keying -> bytes -> record -> Prop :=
  | meant_plain : forall l, meant NoKey l (None, l)
  | meant_key : forall k l, meant (Key k) l (Some k, l)
  | meant_divided : forall s l a v, divided s l a v -> meant (Separator s) l (Some a, v).
(** The records of some lines, in order; lines without a separator have none *)
Inductive all_meant (k : keying) : list bytes -> list record -> Prop :=
  | all_nil : all_meant k [] []
  | all_cons : forall l r t rs, meant k l r -> all_meant k t rs -> all_meant k (l :: t) (r :: rs)
  | all_skip : forall l t rs, (forall r, ~ meant k l r) -> all_meant k t rs -> all_meant k (l :: t) rs.

(** The command reads this text, from a file or from its input, and the reading does
    not fail *)
Definition reads (o : produce_opt) (d : bytes) : Prop :=
  p_source o = File (Some (mkInput d false)) \/ p_source o = Stdin (mkInput d false).
Definition prefix (a b : list record) : Prop := exists c, b = a ++ c.

(** Records of one partition, in the order of their offsets *)
Fixpoint ascending (from : Z) (l : list item) : Prop :=
  match l with [] => True | x :: t => from <= t_offset x /\ ascending (t_offset x + 1) t end.

(** The libraries for printing: valid text is printed as it is, and what is printed is
    valid text *)
Definition sound (Q : printer) : Prop :=
  (forall b, utf8 b = true -> q_lossy Q b = b) /\ (forall b, utf8 (q_lossy Q b) = true).
