(** The hex dump that the consumer prints for a record that is not text.
    fluvio-extension-common/src/common/hex_dump.rs.  Text is a list of character codes.
    A caller only ever sees the whole string, so the string is returned by the loop
    rather than pushed to. *)
From Coq Require Import ZArith List Bool.
Import ListNotations.
From Verif Require Import Base.
Local Open Scope Z_scope.

(** one digit of [{:x}] *)
Definition digit (d : Z) : Z := if d <? 10 then 48 + d else 87 + d.
(** [{:08x}], hex_dump.rs:20: at least eight digits, more if they are needed *)
Definition hex_width (n : Z) : nat := Nat.max 8 (Z.to_nat (Z.log2 n / 4 + 1)).
Fixpoint hex_digits (k : nat) (n : Z) : list Z :=
  match k with O => [] | S k' => hex_digits k' (n / 16) ++ [digit (n mod 16)] end.
Definition hex08 (n : Z) : list Z := hex_digits (hex_width n) n.
(** [{:02x}] of a byte, hex_dump.rs:32 *)
Definition hex02 (b : Z) : list Z := [digit (b / 16); digit (b mod 16)].
(** hex_dump.rs:59-67 [byte_to_string] *)
Definition byte_to_string (b : Z) : Z := if (32 <=? b) && (b <? 127) then b else if b =? 10 then 46 else 32.

(** hex_dump.rs:42-53: the rest of the last line; [n] is the length of the record *)
Definition finish (n : Z) (coll : list Z) : list Z :=
  match coll with
  | [] => []
  | _ =>
      let gap := Z.to_nat (16 - n mod 16) in
      (if n mod 16 <=? 8 then [32] else []) ++ concat (repeat [32; 32; 32] gap) ++ [32; 32; 124] ++ (coll ++ repeat 32 gap) ++ [124; 10]
  end.
(** hex_dump.rs:17-39, from index [i] on *)
Fixpoint dump_loop (i : Z) (r coll : list Z) : list Z :=
  match r with
  | [] => finish i coll
  | b :: t =>
      let coll := coll ++ [byte_to_string b] in
      (if i mod 16 =? 0 then hex08 i else []) ++ (if i mod 8 =? 0 then [32] else []) ++ [32] ++ hex02 b ++
      (if (i + 1) mod 16 =? 0 then [32; 32; 124] ++ coll ++ [124; 10] ++ dump_loop (i + 1) t [] else dump_loop (i + 1) t coll)
  end.
(** hex_dump.rs:9-56 [bytes_to_hex_dump] *)
Definition hex_dump (r : list Z) : list Z := dump_loop 0 r [].
