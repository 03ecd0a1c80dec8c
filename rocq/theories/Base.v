(** Shared vocabulary of the model: bytes, results, machine integers.
    No property theorem lives here. *)
From Coq Require Export List ZArith Lia Bool Arith.
From Coq Require Export ZifyBool ZifyNat.
Export ListNotations.
Ltac Zify.zify_post_hook ::= Z.div_mod_to_equations.
Global Open Scope Z_scope.

(** A byte string: every element is meant to lie in [0,256). *)
Definition bytes := list Z.
Definition is_byte (b : Z) : Prop := 0 <= b < 256.
Definition is_bytes (l : bytes) : Prop := Forall is_byte l.

(** Errors of the modelled Rust code.  [Eof] is [ErrorKind::UnexpectedEof],
    [InvalidData] is [ErrorKind::InvalidData], [Panic] is a Rust panic
    (explicit error value), [OutOfFuel] is a loop that did not finish. *)
Inductive err := Eof | InvalidData | Panic | OutOfFuel.

Inductive res (A : Type) := Ok (a : A) | Err (e : err).
Arguments Ok {A} a.
Arguments Err {A} e.

Definition bind {A B} (r : res A) (f : A -> res B) : res B :=
  match r with Ok a => f a | Err e => Err e end.
Notation "'let*' p ':=' r 'in' f" :=
  (bind r (fun p => f)) (at level 200, p pattern, r at level 100, f at level 200).

Definition is_ok {A} (r : res A) : bool := match r with Ok _ => true | Err _ => false end.

(** length as Z *)
Definition zlen {A} (l : list A) : Z := Z.of_nat (length l).

(** two's complement wrap-around of an integer to [n] bits *)
Definition wrap_u (n : Z) (x : Z) : Z := x mod 2 ^ n.
Definition wrap_s (n : Z) (x : Z) : Z := (x + 2 ^ (n - 1)) mod 2 ^ n - 2 ^ (n - 1).

Definition in_u (n : Z) (x : Z) : Prop := 0 <= x < 2 ^ n.
Definition in_s (n : Z) (x : Z) : Prop := - 2 ^ (n - 1) <= x < 2 ^ (n - 1).
Definition in_ub (n x : Z) : bool := (0 <=? x) && (x <? 2 ^ n).
Definition in_sb (n x : Z) : bool := (- 2 ^ (n - 1) <=? x) && (x <? 2 ^ (n - 1)).

Definition option_get {A} (d : A) (o : option A) : A := match o with Some a => a | None => d end.

(** [take]/[drop] with an integer count, structural in the list (so that a huge
    count costs nothing). A negative count takes nothing. *)
Fixpoint ztake {A} (n : Z) (l : list A) : list A :=
  match l with
  | [] => []
  | x :: t => if n <=? 0 then [] else x :: ztake (n - 1) t
  end.
Fixpoint zdrop {A} (n : Z) (l : list A) : list A :=
  match l with
  | [] => []
  | x :: t => if n <=? 0 then l else zdrop (n - 1) t
  end.

(** [as usize] of a signed integer on a 64-bit target *)
Definition as_usize (x : Z) : Z := x mod 2 ^ 64.
