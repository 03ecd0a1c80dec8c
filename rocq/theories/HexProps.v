(** The hex dump of a record. *)
From Coq Require Import ZArith List Bool.
Import ListNotations.
From Verif Require Import Base HexModel HexSpec HexProofs.
Local Open Scope Z_scope.

(** Two records with the same dump are the same: nothing is lost in it. *)
Theorem C123_nothing_lost : forall r r', record r -> record r' -> hex_dump r = hex_dump r' -> r = r'.
Proof. exact nothing_lost. Qed.
Print Assumptions C123_nothing_lost.
Example C123_nothing_lost_example : record [0; 255; 10] /\ hex_dump [0; 255; 10] <> hex_dump [32; 255; 10].
Proof. split; [split; [repeat constructor; discriminate | discriminate] | intros H; discriminate H]. Qed.

(** Every byte is there, at the column of its place in its line, as two hex digits. *)
Theorem C123_byte_seen : forall r i b, record r -> nth_error r i = Some b ->
  exists x y, value_of (char_at (hex_dump r) (i / 16) (column (i mod 16))) = Some x /\ value_of (char_at (hex_dump r) (i / 16) (S (column (i mod 16)))) = Some y /\ b = 16 * x + y.
Proof. exact byte_seen. Qed.
Print Assumptions C123_byte_seen.
Example C123_byte_seen_example : record (repeat 7 17 ++ [171]) /\ nth_error (repeat 7 17 ++ [171]) 17 = Some 171 /\ char_at (hex_dump (repeat 7 17 ++ [171])) 1 13 = 97.
Proof. split; [split; [repeat constructor; discriminate | discriminate] | split; reflexivity]. Qed.

(** The rest of the last line is blank. *)
Theorem C123_blank_after : forall r i, record r -> (length r <= i)%nat -> (i / 16 < lines (length r))%nat ->
  char_at (hex_dump r) (i / 16) (column (i mod 16)) = 32 /\ char_at (hex_dump r) (i / 16) (S (column (i mod 16))) = 32 /\ char_at (hex_dump r) (i / 16) (text_column (i mod 16)) = 32.
Proof. exact blank_after. Qed.
Print Assumptions C123_blank_after.
Example C123_blank_after_example : record [65] /\ (1 / 16 < lines (length [65]))%nat.
Proof. split; [split; [repeat constructor; discriminate | discriminate] | repeat constructor]. Qed.

(** At the right of the line is its text: printable characters as they are, a newline as a dot, and a blank for any other. *)
Theorem C123_text_seen : forall r i b, record r -> nth_error r i = Some b ->
  char_at (hex_dump r) (i / 16) (text_column (i mod 16)) = (if (32 <=? b) && (b <=? 126) then b else if b =? 10 then 46 else 32).
Proof. exact text_seen. Qed.
Print Assumptions C123_text_seen.
Example C123_text_seen_example : record [65; 10; 200] /\ map (char_at (hex_dump [65; 10; 200]) 0) [61%nat; 62%nat; 63%nat] = [65; 46; 32].
Proof. split; [split; [repeat constructor; discriminate | discriminate] | reflexivity]. Qed.

(** A line starts with the offset of its first byte, in eight hex digits. *)
Theorem C123_offset_seen : forall r k, record r -> (k < lines (length r))%nat -> number (map (char_at (hex_dump r) k) (seq 0 8)) 0 = Some (16 * Z.of_nat k).
Proof. exact offset_seen. Qed.
Print Assumptions C123_offset_seen.
Example C123_offset_seen_example : record (repeat 7 17) /\ (1 < lines (length (repeat 7 17)))%nat /\ map (char_at (hex_dump (repeat 7 17)) 1) (seq 0 8) = [48; 48; 48; 48; 48; 48; 49; 48].
Proof. split; [split; [repeat constructor; discriminate | discriminate] | split; [repeat constructor | reflexivity]]. Qed.

(** A line ends with a newline, its text is between bars, and there is a blank before each byte and one more before each half and before the text. *)
Theorem C123_line_end : forall r k, record r -> (k < lines (length r))%nat -> char_at (hex_dump r) k 78 = 10 /\ char_at (hex_dump r) k 60 = 124 /\ char_at (hex_dump r) k 77 = 124 /\ Forall (fun p => char_at (hex_dump r) k p = 32) (8 :: 33 :: 58 :: 59 :: map (fun j => pred (column j)) (seq 0 16))%nat.
Proof. exact line_end. Qed.
Print Assumptions C123_line_end.
Example C123_line_end_example : record [65] /\ (0 < lines (length [65]))%nat.
Proof. split; [split; [repeat constructor; discriminate | discriminate] | repeat constructor]. Qed.

(** There is a line for every sixteen bytes, and nothing else; all have the same length. *)
Theorem C123_length : forall r, record r -> length (hex_dump r) = (79 * lines (length r))%nat.
Proof. exact dump_length. Qed.
Print Assumptions C123_length.
Example C123_length_example : record (repeat 7 17) /\ length (hex_dump (repeat 7 17)) = 158%nat.
Proof. split; [split; [repeat constructor; discriminate | discriminate] | reflexivity]. Qed.

(** The text alone does not tell the records apart: a zero byte looks like a blank. *)
Theorem C123_text_refuted : ~ (forall r r', record r -> record r' -> length r = length r' ->
  (forall i, (i < length r)%nat -> char_at (hex_dump r) (i / 16) (text_column (i mod 16)) = char_at (hex_dump r') (i / 16) (text_column (i mod 16))) -> r = r').
Proof. exact text_refuted. Qed.
Print Assumptions C123_text_refuted.

(** A dot in the text need not be a dot. *)
Theorem C123_newline_refuted : ~ (forall r i, record r -> nth_error r i = Some 46 <-> char_at (hex_dump r) (i / 16) (text_column (i mod 16)) = 46).
Proof. exact newline_refuted. Qed.
Print Assumptions C123_newline_refuted.
