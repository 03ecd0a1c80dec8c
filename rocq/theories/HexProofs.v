(** Proofs on the hex dump. *)
From Coq Require Import ZArith List Bool Lia.
Import ListNotations.
From Verif Require Import Base HexModel HexSpec.
Local Open Scope Z_scope.

Fixpoint loop2 (k j : Z) (r coll : list Z) : list Z :=
  match r with
  | [] => match coll with [] => [] | _ =>
      (if j <=? 8 then [32] else []) ++ concat (repeat [32; 32; 32] (Z.to_nat (16 - j))) ++ [32; 32; 124] ++ (coll ++ repeat 32 (Z.to_nat (16 - j))) ++ [124; 10] end
  | b :: t =>
      let coll := coll ++ [byte_to_string b] in
      (if j =? 0 then hex08 (16 * k) else []) ++ (if (j =? 0) || (j =? 8) then [32] else []) ++ [32] ++ hex02 b ++
      (if j =? 15 then [32; 32; 124] ++ coll ++ [124; 10] ++ loop2 (k + 1) 0 t [] else loop2 k (j + 1) t coll)
  end.
Lemma loop_loop2 r : forall k j coll, 0 <= j < 16 -> dump_loop (16 * k + j) r coll = loop2 k j r coll.
Proof.
  induction r as [|b t IH]; intros k j coll J; cbn [dump_loop loop2].
  - unfold finish. replace ((16 * k + j) mod 16) with j; [reflexivity |]. rewrite Z.add_comm, Z.mul_comm, Z_mod_plus_full, Z.mod_small; lia.
  - assert (A : (16 * k + j) mod 16 = j) by (rewrite Z.add_comm, Z.mul_comm, Z_mod_plus_full, Z.mod_small; lia).
    assert (B : (16 * k + j) mod 8 = j mod 8) by (replace (16 * k + j) with (j + (2 * k) * 8) by lia; apply Z_mod_plus_full).
    assert (C : (j mod 8 =? 0) = (j =? 0) || (j =? 8)).
    { assert (D : j = 0 \/ j = 1 \/ j = 2 \/ j = 3 \/ j = 4 \/ j = 5 \/ j = 6 \/ j = 7 \/ j = 8 \/ j = 9 \/ j = 10 \/ j = 11 \/ j = 12 \/ j = 13 \/ j = 14 \/ j = 15) by lia.
      decompose [or] D; subst; reflexivity. }
    rewrite A, B, C. f_equal.
    { destruct (j =? 0) eqn:E; [| reflexivity]. apply Z.eqb_eq in E. subst. now rewrite Z.add_0_r. }
    do 3 f_equal. destruct (j =? 15) eqn:E.
    + apply Z.eqb_eq in E. subst. replace (16 * k + 15 + 1) with (16 * (k + 1) + 0) by lia.
      replace ((16 * (k + 1) + 0) mod 16) with 0 by (rewrite Z.add_0_r, Z.mul_comm, Z_mod_mult; reflexivity). cbn [Z.eqb]. rewrite IH by lia. reflexivity.
    + apply Z.eqb_neq in E. replace ((16 * k + j + 1) mod 16) with (j + 1) by (replace (16 * k + j + 1) with (j + 1 + k * 16) by lia; rewrite Z_mod_plus_full, Z.mod_small; lia).
      replace (j + 1 =? 0) with false by (symmetry; apply Z.eqb_neq; lia). replace (16 * k + j + 1) with (16 * k + (j + 1)) by lia. apply IH. lia.
Qed.

Definition hi (c : list Z) (j : nat) : Z := match nth_error c j with Some b => digit (b / 16) | None => 32 end.
Definition lo (c : list Z) (j : nat) : Z := match nth_error c j with Some b => digit (b mod 16) | None => 32 end.
Definition txt (c : list Z) (j : nat) : Z := match nth_error c j with Some b => byte_to_string b | None => 32 end.
Definition cells (c : list Z) (l : list nat) : list Z := flat_map (fun j => [32; hi c j; lo c j]) l.
Definition row (k : Z) (c : list Z) : list Z :=
  hex08 (16 * k) ++ [32] ++ cells c (seq 0 8) ++ [32] ++ cells c (seq 8 8) ++ [32; 32; 124] ++ map (txt c) (seq 0 16) ++ [124; 10].

Lemma loop2_cons k j b t coll : loop2 k j (b :: t) coll =
  (if j =? 0 then hex08 (16 * k) else []) ++ (if (j =? 0) || (j =? 8) then [32] else []) ++ [32; digit (b / 16); digit (b mod 16)] ++
  (if j =? 15 then [32; 32; 124] ++ (coll ++ [byte_to_string b]) ++ [124; 10] ++ loop2 (k + 1) 0 t [] else loop2 k (j + 1) t (coll ++ [byte_to_string b])).
Proof. reflexivity. Qed.
Lemma loop2_nil k j coll : loop2 k j [] coll = match coll with [] => [] | _ =>
      (if j <=? 8 then [32] else []) ++ concat (repeat [32; 32; 32] (Z.to_nat (16 - j))) ++ [32; 32; 124] ++ (coll ++ repeat 32 (Z.to_nat (16 - j))) ++ [124; 10] end.
Proof. reflexivity. Qed.
Lemma row_eq k c : row k c = hex08 (16 * k) ++ 32 :: 32 :: hi c 0 :: lo c 0 :: 32 :: hi c 1 :: lo c 1 :: 32 :: hi c 2 :: lo c 2 :: 32 :: hi c 3 :: lo c 3 :: 32 :: hi c 4 :: lo c 4 ::
  32 :: hi c 5 :: lo c 5 :: 32 :: hi c 6 :: lo c 6 :: 32 :: hi c 7 :: lo c 7 :: 32 :: 32 :: hi c 8 :: lo c 8 :: 32 :: hi c 9 :: lo c 9 :: 32 :: hi c 10 :: lo c 10 ::
  32 :: hi c 11 :: lo c 11 :: 32 :: hi c 12 :: lo c 12 :: 32 :: hi c 13 :: lo c 13 :: 32 :: hi c 14 :: lo c 14 :: 32 :: hi c 15 :: lo c 15 :: 32 :: 32 :: 124 ::
  txt c 0 :: txt c 1 :: txt c 2 :: txt c 3 :: txt c 4 :: txt c 5 :: txt c 6 :: txt c 7 :: txt c 8 :: txt c 9 :: txt c 10 :: txt c 11 :: txt c 12 :: txt c 13 :: txt c 14 :: txt c 15 :: 124 :: [10].
Proof. reflexivity. Qed.
Opaque loop2 hex08 row.
Ltac walk := repeat (rewrite loop2_cons; cbn [Z.eqb Z.add Pos.add Pos.succ Pos.eqb orb app]).
Lemma short k b r : (length r < 15)%nat -> loop2 k 0 (b :: r) [] = row k (b :: r).
Proof.
  intros L. rewrite row_eq. unfold hi, lo, txt.
  do 15 (destruct r as [|? r]; [clear L; walk; rewrite loop2_nil;
    match goal with |- context [Z.to_nat ?x] => let n := eval vm_compute in (Z.to_nat x) in change (Z.to_nat x) with n end; cbn [Z.leb Z.compare Pos.compare Pos.compare_cont repeat concat app nth_error]; reflexivity |]).
  cbn in L. lia.
Qed.
Lemma loop2_row k r : (16 <= length r)%nat -> loop2 k 0 r [] = row k (firstn 16 r) ++ loop2 (k + 1) 0 (skipn 16 r) [].
Proof.
  intros L. do 16 (destruct r as [|? r]; [cbn in L; lia |]). rewrite row_eq. unfold hi, lo, txt. cbn [firstn skipn nth_error].
  walk. rewrite <- ?app_assoc. cbn [app]. reflexivity.
Qed.

(** ** Digits *)
Lemma digit_value d : 0 <= d < 16 -> value_of (digit d) = Some d.
Proof.
  intros D. unfold value_of, digit. destruct (d <? 10) eqn:E; [apply Z.ltb_lt in E | apply Z.ltb_ge in E].
  - replace (48 <=? 48 + d) with true by (symmetry; apply Z.leb_le; lia). replace (48 + d <=? 57) with true by (symmetry; apply Z.leb_le; lia). cbn [andb]. f_equal. lia.
  - replace (87 + d <=? 57) with false by (symmetry; apply Z.leb_gt; lia). rewrite andb_false_r.
    replace (97 <=? 87 + d) with true by (symmetry; apply Z.leb_le; lia). replace (87 + d <=? 102) with true by (symmetry; apply Z.leb_le; lia). cbn [andb]. f_equal. lia.
Qed.
Lemma hex_digits_length k : forall n, length (hex_digits k n) = k.
Proof. induction k; intros n; cbn; [reflexivity |]. rewrite app_length, IHk. cbn. lia. Qed.
Lemma number_app l ch v : forall acc, value_of ch = Some v -> number (l ++ [ch]) acc = match number l acc with Some x => Some (16 * x + v) | None => None end.
Proof.
  intros acc V. revert acc. induction l as [|a t IH]; intros acc; cbn; [now rewrite V |]. destruct (value_of a); [apply IH | reflexivity].
Qed.
Lemma hex_digits_number k : forall n, 0 <= n < 16 ^ Z.of_nat k -> number (hex_digits k n) 0 = Some n.
Proof.
  induction k; intros n N; cbn [hex_digits].
  - change (16 ^ Z.of_nat 0) with 1 in N. cbn. f_equal. lia.
  - rewrite Nat2Z.inj_succ, Z.pow_succ_r in N by lia.
    assert (M : 0 <= n mod 16 < 16) by (apply Z.mod_pos_bound; lia).
    rewrite (number_app _ _ (n mod 16)) by now apply digit_value.
    rewrite IHk; [f_equal; pose proof (Z.div_mod n 16); lia |].
    split; [apply Z.div_pos; lia | apply Z.div_lt_upper_bound; lia].
Qed.
Lemma width8 n : 0 <= n < 2 ^ 32 -> hex_width n = 8%nat.
Proof.
  intros N. unfold hex_width. apply Nat.max_l. destruct (Z.eq_dec n 0) as [->|Z]; [cbn; lia |].
  assert (L : Z.log2 n < 32) by (apply Z.log2_lt_pow2; lia). pose proof (Z.log2_nonneg n).
  assert (Z.log2 n / 4 < 8) by (apply Z.div_lt_upper_bound; lia). lia.
Qed.
Transparent hex08.
Lemma hex08_length n : 0 <= n < 2 ^ 32 -> length (hex08 n) = 8%nat.
Proof. intros N. unfold hex08. rewrite width8 by auto. apply hex_digits_length. Qed.
Lemma hex08_number n : 0 <= n < 2 ^ 32 -> number (hex08 n) 0 = Some n.
Proof. intros N. unfold hex08. rewrite width8 by auto. apply hex_digits_number. exact N. Qed.
Opaque hex08.
Lemma row_length k c : 0 <= 16 * k < 2 ^ 32 -> length (row k c) = 79%nat.
Proof. intros K. rewrite row_eq, app_length, hex08_length by auto. reflexivity. Qed.

(** ** Lines *)
Lemma lines_more n : (16 <= n)%nat -> lines n = S (lines (n - 16)).
Proof. intros N. unfold lines. replace (n + 15)%nat with ((n - 16 + 15) + 1 * 16)%nat by lia. rewrite Nat.div_add by lia. lia. Qed.
Lemma lines_one n : (0 < n < 17)%nat -> lines n = 1%nat.
Proof. intros N. unfold lines. symmetry. apply (Nat.div_unique _ _ _ (n - 1)); lia. Qed.
Lemma skipn_more {A} (n m : nat) (l : list A) : skipn n (skipn m l) = skipn (m + n) l.
Proof. revert l. induction m; intros l; [reflexivity |]. destruct l; cbn; [apply skipn_nil | apply IHm]. Qed.

Lemma loop2_at fuel : forall r K, (length r <= fuel)%nat -> 0 <= K -> 16 * K + Z.of_nat (length r) <= 2 ^ 32 ->
  length (loop2 K 0 r []) = (79 * lines (length r))%nat /\
  forall k p, (k < lines (length r))%nat -> (p < 79)%nat -> nth (79 * k + p) (loop2 K 0 r []) 0 = nth p (row (K + Z.of_nat k) (firstn 16 (skipn (16 * k) r))) 0.
Proof.
  induction fuel as [|fuel IH]; intros r K F P B.
  - destruct r; [| cbn in F; lia]. split; [reflexivity |]. intros k p L. cbn in L. lia.
  - destruct (le_lt_dec 16 (length r)) as [G|G].
    + rewrite (loop2_row _ _ G), (lines_more _ G), <- (skipn_length 16 r).
      assert (R : length (row K (firstn 16 r)) = 79%nat) by (apply row_length; lia).
      destruct (IH (skipn 16 r) (K + 1)) as (I1 & I2); [rewrite skipn_length; lia | lia | rewrite skipn_length; lia |].
      split; [rewrite app_length, R, I1; lia |]. intros k p L Q. destruct k as [|k].
      * rewrite app_nth1 by lia. rewrite Z.add_0_r. replace (79 * 0 + p)%nat with p by lia. reflexivity.
      * rewrite app_nth2 by lia. rewrite R. replace (79 * S k + p - 79)%nat with (79 * k + p)%nat by lia. rewrite I2 by lia.
        rewrite skipn_more. replace (K + 1 + Z.of_nat k) with (K + Z.of_nat (S k)) by lia. replace (16 * S k)%nat with (16 + 16 * k)%nat by lia. reflexivity.
    + destruct r as [|b r]; [split; [reflexivity | intros k p L; cbn in L; lia] |].
      cbn [length] in *. rewrite lines_one by lia. rewrite short by lia. rewrite row_length by lia. split; [reflexivity |].
      intros k p L Q. replace k with 0%nat by lia. cbn [Nat.mul Nat.add skipn]. rewrite Z.add_0_r, firstn_all2 by (cbn; lia). reflexivity.
Qed.
Lemma dump_at r : record r -> length (hex_dump r) = (79 * lines (length r))%nat /\
  forall k p, (k < lines (length r))%nat -> (p < 79)%nat -> char_at (hex_dump r) k p = nth p (row (Z.of_nat k) (firstn 16 (skipn (16 * k) r))) 0.
Proof.
  intros (_ & B). unfold hex_dump, char_at. change (dump_loop 0 r []) with (dump_loop (16 * 0 + 0) r []). rewrite loop_loop2 by lia.
  destruct (loop2_at (length r) r 0) as (A & C); [lia | lia | lia |]. split; [exact A |]. intros k p K P. rewrite C by auto. reflexivity.
Qed.

(** ** What is seen *)
Lemma dump_length r : record r -> length (hex_dump r) = (79 * lines (length r))%nat.
Proof. intros R. now apply dump_at. Qed.
Lemma in_lines n i : (i < n)%nat -> (i / 16 < lines n)%nat.
Proof. intros L. unfold lines. assert ((i + 16) / 16 <= (n + 15) / 16)%nat by (apply Nat.div_le_mono; lia). replace (i + 16)%nat with (i + 1 * 16)%nat in H by lia. rewrite Nat.div_add in H by lia. lia. Qed.
Lemma line_offset n k : (k < lines n)%nat -> (16 * k < n)%nat.
Proof. unfold lines. intros L. assert (n + 15 = 16 * ((n + 15) / 16) + (n + 15) mod 16)%nat by (apply Nat.div_mod; lia). pose proof (Nat.mod_upper_bound (n + 15) 16). lia. Qed.
Lemma chunk_nth {A} (r : list A) i : nth_error (firstn 16 (skipn (16 * (i / 16)) r)) (i mod 16) = nth_error r i.
Proof.
  assert (M : (i mod 16 < 16)%nat) by (apply Nat.mod_upper_bound; lia). pose proof (Nat.div_mod i 16) as D.
  assert (F : forall n (l : list A) j, (j < n)%nat -> nth_error (firstn n l) j = nth_error l j).
  { induction n; intros l j J; [lia |]. destruct l; [now destruct j |]. destruct j; [reflexivity |]. cbn. apply IHn. lia. }
  assert (S : forall m (l : list A) j, nth_error (skipn m l) j = nth_error l (m + j)).
  { induction m; intros l j; [reflexivity |]. destruct l; cbn; [now destruct j | apply IHm]. }
  rewrite F, S by auto. f_equal. lia.
Qed.
Lemma row_hi k c j : 0 <= 16 * k < 2 ^ 32 -> (j < 16)%nat -> nth (column j) (row k c) 0 = hi c j /\ nth (S (column j)) (row k c) 0 = lo c j /\ nth (text_column j) (row k c) 0 = txt c j.
Proof.
  intros K J. rewrite row_eq. pose proof (hex08_length _ K) as L. destruct (hex08 (16 * k)) as [|a0 [|a1 [|a2 [|a3 [|a4 [|a5 [|a6 [|a7 [|]]]]]]]]]; try discriminate L.
  do 16 (destruct j as [|j]; [cbn -[hi lo txt]; auto |]). lia.
Qed.
Lemma row_number k c : 0 <= 16 * k < 2 ^ 32 -> number (firstn 8 (row k c)) 0 = Some (16 * k).
Proof. intros K. rewrite row_eq, firstn_app, hex08_length, firstn_all2 by (rewrite ?hex08_length; auto). cbn [Nat.sub firstn]. rewrite app_nil_r. now apply hex08_number. Qed.
Lemma column_79 j : (j < 16)%nat -> (S (column j) < 79)%nat /\ (text_column j < 79)%nat.
Proof. unfold column, text_column. destruct (Nat.ltb j 8); lia. Qed.
Lemma place r i : record r -> (i / 16 < lines (length r))%nat -> let c := firstn 16 (skipn (16 * (i / 16)) r) in
  char_at (hex_dump r) (i / 16) (column (i mod 16)) = hi c (i mod 16) /\ char_at (hex_dump r) (i / 16) (S (column (i mod 16))) = lo c (i mod 16) /\
  char_at (hex_dump r) (i / 16) (text_column (i mod 16)) = txt c (i mod 16).
Proof.
  intros R L c. destruct (dump_at r R) as (_ & D). assert (M : (i mod 16 < 16)%nat) by (apply Nat.mod_upper_bound; lia).
  destruct (column_79 _ M). destruct R as (_ & B). pose proof (line_offset _ _ L). rewrite !D by lia. apply row_hi; [lia | exact M].
Qed.
Lemma byte_seen r i b : record r -> nth_error r i = Some b ->
  exists x y, value_of (char_at (hex_dump r) (i / 16) (column (i mod 16))) = Some x /\ value_of (char_at (hex_dump r) (i / 16) (S (column (i mod 16)))) = Some y /\ b = 16 * x + y.
Proof.
  intros R N. assert (L : (i < length r)%nat) by (apply nth_error_Some; congruence).
  destruct (place r i R (in_lines _ _ L)) as (H & W & _). rewrite H, W. unfold hi, lo. rewrite chunk_nth, N.
  destruct R as (R & _). rewrite Forall_forall in R. specialize (R b (nth_error_In _ _ N)).
  exists (b / 16), (b mod 16). rewrite !digit_value; [| apply Z.mod_pos_bound; lia | split; [apply Z.div_pos; lia | apply Z.div_lt_upper_bound; lia]].
  repeat split. apply Z.div_mod. lia.
Qed.
Lemma blank_after r i : record r -> (length r <= i)%nat -> (i / 16 < lines (length r))%nat ->
  char_at (hex_dump r) (i / 16) (column (i mod 16)) = 32 /\ char_at (hex_dump r) (i / 16) (S (column (i mod 16))) = 32 /\ char_at (hex_dump r) (i / 16) (text_column (i mod 16)) = 32.
Proof.
  intros R G L. destruct (place r i R L) as (H & W & T). rewrite H, W, T. unfold hi, lo, txt. rewrite chunk_nth.
  replace (nth_error r i) with (@None Z) by (symmetry; now apply nth_error_None). auto.
Qed.
Lemma text_seen r i b : record r -> nth_error r i = Some b ->
  char_at (hex_dump r) (i / 16) (text_column (i mod 16)) = (if (32 <=? b) && (b <=? 126) then b else if b =? 10 then 46 else 32).
Proof.
  intros R N. assert (L : (i < length r)%nat) by (apply nth_error_Some; congruence).
  destruct (place r i R (in_lines _ _ L)) as (_ & _ & T). rewrite T. unfold txt. rewrite chunk_nth, N. unfold byte_to_string.
  replace (b <? 127) with (b <=? 126); [reflexivity |]. destruct (b <=? 126) eqn:E; symmetry; [apply Z.leb_le in E; apply Z.ltb_lt | apply Z.leb_gt in E; apply Z.ltb_ge]; lia.
Qed.
Lemma offset_seen r k : record r -> (k < lines (length r))%nat -> number (map (char_at (hex_dump r) k) (seq 0 8)) 0 = Some (16 * Z.of_nat k).
Proof.
  intros R L. destruct (dump_at r R) as (_ & D). pose proof (line_offset _ _ L) as O. destruct R as (_ & B).
  assert (K : 0 <= 16 * Z.of_nat k < 2 ^ 32) by lia. rewrite <- (row_number _ (firstn 16 (skipn (16 * k) r)) K). f_equal.
  cbn [map seq]. rewrite !D by lia. pose proof (row_length (Z.of_nat k) (firstn 16 (skipn (16 * k) r)) K) as W.
  revert W. generalize (row (Z.of_nat k) (firstn 16 (skipn (16 * k) r))). intros w W.
  do 8 (destruct w as [|? w]; [discriminate W |]). reflexivity.
Qed.
Lemma line_end r k : record r -> (k < lines (length r))%nat -> char_at (hex_dump r) k 78 = 10 /\ char_at (hex_dump r) k 60 = 124 /\ char_at (hex_dump r) k 77 = 124 /\ Forall (fun p => char_at (hex_dump r) k p = 32) (8 :: 33 :: 58 :: 59 :: map (fun j => pred (column j)) (seq 0 16))%nat.
Proof.
  intros R L. destruct (dump_at r R) as (_ & D). pose proof (line_offset _ _ L) as O. destruct R as (_ & B). rewrite !D by lia. cbn [map seq column Nat.ltb Nat.leb Nat.mul Nat.add Nat.pred].
  assert (F : forall l, Forall (fun p => (p < 79)%nat /\ nth p (row (Z.of_nat k) (firstn 16 (skipn (16 * k) r))) 0 = 32) l -> Forall (fun p => char_at (hex_dump r) k p = 32) l)
    by (intros l; apply Forall_impl; intros p (P & Q); rewrite D by lia; exact Q).
  enough (X : nth 78 (row (Z.of_nat k) (firstn 16 (skipn (16 * k) r))) 0 = 10 /\ nth 60 (row (Z.of_nat k) (firstn 16 (skipn (16 * k) r))) 0 = 124 /\ nth 77 (row (Z.of_nat k) (firstn 16 (skipn (16 * k) r))) 0 = 124 /\
    Forall (fun p => (p < 79)%nat /\ nth p (row (Z.of_nat k) (firstn 16 (skipn (16 * k) r))) 0 = 32) (8 :: 33 :: 58 :: 59 :: map (fun j => pred (column j)) (seq 0 16))%nat) by (destruct X as (X1 & X2 & X3 & X4); repeat split; auto; apply F; exact X4).
  rewrite row_eq.
  assert (K : 0 <= 16 * Z.of_nat k < 2 ^ 32) by lia. pose proof (hex08_length _ K) as W. 
  destruct (hex08 (16 * Z.of_nat k)) as [|a0 [|a1 [|a2 [|a3 [|a4 [|a5 [|a6 [|a7 [|]]]]]]]]]; try discriminate W. repeat split. repeat (constructor; [split; [cbn; lia | reflexivity] |]). constructor.
Qed.
Lemma seen_in r r' : record r -> record r' -> hex_dump r = hex_dump r' -> forall i b, nth_error r i = Some b -> nth_error r' i = Some b.
Proof.
  intros R R' E i b N. destruct (byte_seen r i b R N) as (x & y & X & Y & ->). rewrite E in X, Y.
  destruct (nth_error r' i) as [b'|] eqn:N'.
  - destruct (byte_seen r' i b' R' N') as (x' & y' & X' & Y' & ->). congruence.
  - apply nth_error_None in N'. assert (L : (i < length r)%nat) by (apply nth_error_Some; congruence).
    pose proof (dump_length r R) as A. pose proof (dump_length r' R') as A'. rewrite E in A. apply in_lines in L.
    destruct (blank_after r' i R' N') as (C & _); [lia |]. rewrite C in X. discriminate X.
Qed.
Lemma nothing_lost r r' : record r -> record r' -> hex_dump r = hex_dump r' -> r = r'.
Proof.
  intros R R' E.
  assert (X : forall (a b : list Z), (forall i, nth_error a i = nth_error b i) -> a = b).
  { induction a as [|x a IH]; intros [|y b] H; [reflexivity | specialize (H 0%nat); discriminate | specialize (H 0%nat); discriminate |].
    pose proof (H 0%nat) as H0. injection H0 as ->. f_equal. apply IH. intros i. apply (H (S i)). }
  apply X. intros i. destruct (nth_error r i) as [b|] eqn:N; [symmetry; now apply (seen_in r r') |].
  destruct (nth_error r' i) as [b|] eqn:N'; [| reflexivity]. symmetry in E. rewrite (seen_in r' r R' R E i b N') in N. discriminate.
Qed.
Transparent hex08 row loop2.
Lemma text_refuted : ~ (forall r r', record r -> record r' -> length r = length r' ->
  (forall i, (i < length r)%nat -> char_at (hex_dump r) (i / 16) (text_column (i mod 16)) = char_at (hex_dump r') (i / 16) (text_column (i mod 16))) -> r = r').
Proof.
  intros C. assert (D : [0] = [32]); [| discriminate]. apply C; [split; [repeat constructor; lia | cbn; lia] | split; [repeat constructor; lia | cbn; lia] | reflexivity |].
  intros [|i] L; [reflexivity | cbn in L; lia].
Qed.
Lemma newline_refuted : ~ (forall r i, record r -> nth_error r i = Some 46 <-> char_at (hex_dump r) (i / 16) (text_column (i mod 16)) = 46).
Proof. intros C. assert (D : nth_error [10] 0 = Some 46); [| discriminate]. apply C; [split; [repeat constructor; lia | cbn; lia] | reflexivity]. Qed.
