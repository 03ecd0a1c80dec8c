(** What should hold of connectors. *)
From Coq Require Import ZArith List Bool.
Import ListNotations.
From Verif Require Import Base ConnModel.
Open Scope Z_scope.

(** * Schemas *)

Definition required_of (s : schema) : list text := match s with Object _ _ r => r | Type_ _ => [] end.
Definition property (s : schema) (k : text) : option (option schema) := match s with Object _ p _ => lookup k p | Type_ _ => None end.

(** a path of properties each of which is required *)
Inductive leads : schema -> list text -> schema -> Prop :=
| leads_here : forall s, leads s [] s
| leads_on : forall s k t p u, In k (required_of s) -> property s k = Some (Some t) -> leads t p u -> leads s (k :: p) u.
(** the paths that a config needs *)
Definition needed (s : schema) (p : list text) : Prop := exists q k t, p = q ++ [k] /\ leads s q t /\ In k (required_of t).
(** the schema describes all it requires *)
Definition complete (s : schema) : Prop := forall q t k, leads s q t -> In k (required_of t) -> property t k <> None.

(** the value at a path *)
Fixpoint value_at (v : yaml) (p : list text) : option yaml :=
  match p with [] => Some v | k :: r => match v with YMap m => match lookup k m with Some x => value_at x r | None => None end | _ => None end end.

(** * Secrets *)

(** a file as its description says: pairs key=value, each on a line of its own *)
Definition file_of (l : list (text * text)) : text := flat_map (fun e => fst e ++ [61] ++ snd e ++ [10]) l.

(** a file in a free layout: lines without an =, and lines with white space
    around the name *)
Inductive item := Note (t : text) | Entry (before name after value : text).
Definition written (i : item) : text := match i with Note t => t | Entry b n e v => b ++ n ++ e ++ [61] ++ v end.
Definition fine (i : item) : Prop :=
  match i with
  | Note t => ~ In 61 t /\ ~ In 10 t
  | Entry b n e v => valid_name n = true /\ forallb white b = true /\ forallb white e = true /\ ~ In 10 b /\ ~ In 10 e /\ ~ In 10 v
  end.
Definition free_file (l : list item) : text := flat_map (fun i => written i ++ [10]) l.
Fixpoint first_entry (n : text) (l : list item) : option text :=
  match l with
  | [] => None
  | Note _ :: r => first_entry n r
  | Entry _ m _ v :: r => if list_eq_dec Z.eq_dec m n then Some v else first_entry n r
  end.

(** a text without the white space around it *)
Definition bare (t : text) : Prop := match t with [] => True | c :: _ => white c = false /\ white (last t 0) = false end.

(** the text of a template with the values of its secrets *)
Inductive filled (st : text -> option text) : list piece -> text -> Prop :=
| filled_nil : filled st [] []
| filled_text : forall x t y, filled st t y -> filled st (Text x :: t) (x ++ y)
| filled_use : forall n v t y, st n = Some v -> filled st t y -> filled st (Use n :: t) (v ++ y).

(** * Requests *)

(** the partitions a config names, of a topic with [count] partitions *)
Definition named (c : config) (count p : Z) : Prop :=
  match c_consumer c with
  | None => 0 <= p < count
  | Some n => match n_partitions n with All => 0 <= p < count | One q => p = q | Many l => In p l end
  end.
