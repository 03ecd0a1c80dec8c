(** Proofs about the table. *)
From Coq Require Import ZArith List Bool Lia Arith.
Import ListNotations.
From Verif Require Import Base TableModel TableSpec.
Open Scope Z_scope.

Lemma keys_same t : primary_keys (t_cols t) = keys_of t.
Proof. unfold keys_of, primary_keys. induction (t_cols t) as [|c l IH]; cbn; auto. destruct (c_primary c) as [[]|]; cbn; rewrite IH; auto. Qed.

Lemma loop_true n keys old new i : (n <= i \/ i + length keys < n)%nat -> key_loop n i keys old new true = true.
Proof.
  revert i. induction keys as [|k t IH]; intros i H; cbn; auto. cbn in H.
  destruct (get k old) as [v|]; [| apply IH; lia]. destruct (get k new) as [w|]; [| apply IH; lia]. destruct (negb (v =? w)); [apply IH; lia |].
  destruct (Nat.eqb (i + 1) n) eqn:E; [apply Nat.eqb_eq in E; lia | apply IH; lia].
Qed.
Lemma agree_dec k old new : (match get k old, get k new with Some v, Some w => v =? w | _, _ => false end) = true <-> agree k old new.
Proof.
  unfold agree. destruct (get k old) as [v|]; [destruct (get k new) as [w|] |]; split; try discriminate; try (intros (x & A & B); congruence).
  - intros E. apply Z.eqb_eq in E. subst. eauto.
  - intros (x & [= <-] & [= <-]). apply Z.eqb_refl.
Qed.
Lemma loop_step n i k t old new a : (i + 1 <> n)%nat ->
  key_loop n i (k :: t) old new a = key_loop n (S i) t old new (if match get k old, get k new with Some v, Some w => v =? w | _, _ => false end then a else true).
Proof.
  intros N. apply Nat.eqb_neq in N. cbn. destruct (get k old) as [v|]; auto. destruct (get k new) as [w|]; auto. destruct (v =? w); cbn; auto. now rewrite N.
Qed.
(** fewer keys than rows *)
Lemma loop_long n keys old new i : (i + length keys < n)%nat -> key_loop n i keys old new false = false <-> same_key keys old new.
Proof.
  revert i. induction keys as [|k t IH]; intros i H; [cbn; split; auto; constructor |]. cbn in H. rewrite loop_step by lia. unfold same_key. rewrite Forall_cons_iff, <- agree_dec.
  destruct (match get k old, get k new with Some v, Some w => v =? w | _, _ => false end).
  - rewrite IH by lia. unfold same_key. tauto.
  - rewrite loop_true by lia. intuition discriminate.
Qed.
(** as many keys as rows, or more: only the key of the number of rows counts *)
Lemma loop_short n keys old new i a k : (i < n)%nat -> nth_error keys (n - 1 - i) = Some k -> key_loop n i keys old new a = false <-> agree k old new.
Proof.
  revert i a. induction keys as [|x t IH]; intros i a H K; [destruct (n - 1 - i)%nat; discriminate |].
  destruct (Nat.eq_dec (i + 1) n) as [E|E].
  - replace (n - 1 - i)%nat with 0%nat in K by lia. injection K as ->. rewrite <- agree_dec. cbn. apply Nat.eqb_eq in E.
    assert (T : forall b, b = true -> key_loop n (S i) t old new b = true) by (intros b ->; apply loop_true; apply Nat.eqb_eq in E; lia).
    destruct (get k old) as [v|]; [destruct (get k new) as [w|] |]; try (rewrite T by auto; intuition discriminate).
    destruct (v =? w); cbn; [rewrite E; tauto | rewrite T by auto; intuition discriminate].
  - rewrite loop_step by auto. apply IH; [lia |]. replace (n - 1 - i)%nat with (S (n - 1 - S i)) in K by lia. exact K.
Qed.
Lemma one_key n k old new : (0 < n)%nat -> key_loop n 0 [k] old new false = false <-> same_key [k] old new.
Proof.
  intros N. destruct (Nat.eq_dec n 1) as [->|E]; [| apply loop_long; cbn; lia].
  rewrite (loop_short 1 [k] old new 0 false k) by (auto; lia). unfold same_key. rewrite Forall_cons_iff. intuition.
Qed.
Lemma rows_upserted n keys new rows : (forall old, key_loop n 0 keys old new false = false <-> same_key keys old new) -> upserted keys new rows (row_loop n keys new rows).
Proof.
  intros D. induction rows as [|r t IH]; cbn; [constructor |]. specialize (D r). destruct (key_loop n 0 keys r new false).
  - apply up_later; auto. rewrite <- D. discriminate.
  - apply up_here. now apply D.
Qed.
Lemma update_right new t : keys_of t <> [] -> (length (keys_of t) = 1 \/ length (keys_of t) < length (t_data t))%nat ->
  upserted (keys_of t) new (t_data t) (t_data (update_row new t)).
Proof.
  intros K L. unfold update_row. rewrite keys_same. destruct (t_data t) as [|r rows] eqn:D; cbn [t_data]; [constructor |].
  destruct (keys_of t) as [|k ks] eqn:E; [congruence |]. apply rows_upserted. intros old. destruct L as [L|L].
  - destruct ks; [| discriminate]. apply one_key. cbn. lia.
  - apply loop_long. lia.
Qed.
Lemma update_short new t k : (0 < length (t_data t) <= length (keys_of t))%nat -> nth_error (keys_of t) (length (t_data t) - 1) = Some k ->
  upserted [k] new (t_data t) (t_data (update_row new t)).
Proof.
  intros L K. unfold update_row. rewrite keys_same. remember (length (t_data t)) as n eqn:EN. destruct (t_data t) as [|r rows]; [cbn in EN; lia |].
  destruct (keys_of t) as [|x ks]; [cbn in L; lia |]. cbn [t_data].
  assert (G : forall l, upserted [k] new l (row_loop n (x :: ks) new l)).
  { induction l as [|o l IH]; cbn [row_loop]; [constructor |]. pose proof (loop_short n (x :: ks) o new 0 false k) as S0. rewrite Nat.sub_0_r in S0. specialize (S0 ltac:(lia) K).
    assert (S1 : same_key [k] o new <-> agree k o new) by (unfold same_key; rewrite Forall_cons_iff; intuition).
    destruct (key_loop n 0 (x :: ks) o new false); [apply up_later; auto; rewrite S1, <- S0; discriminate | apply up_here; apply S1, S0; auto]. }
  apply G.
Qed.
Lemma no_keys new t : keys_of t = [] -> t_data (update_row new t) = t_data t ++ [new].
Proof. intros K. unfold update_row. rewrite keys_same, K. destruct (t_data t); reflexivity. Qed.
Lemma upserted_len keys new l l' : upserted keys new l l' -> length l' = length l \/ length l' = S (length l).
Proof. induction 1; cbn; lia. Qed.
Lemma upserted_det keys new l a b : upserted keys new l a -> upserted keys new l b -> a = b.
Proof.
  intros A. revert b. induction A; intros b B; inversion B; subst; auto; try contradiction. f_equal. auto.
Qed.

(** ** One key *)
Lemma upsert_one k v new l l' : upserted [k] new l l' -> get k new = Some v ->
  (forall w, find (has k w) l' = if w =? v then Some new else find (has k w) l) /\
  (NoDup (map (get k) l) -> NoDup (map (get k) l')) /\ (forall x, In x (map (get k) l') <-> x = Some v \/ In x (map (get k) l)).
Proof.
  intros U G. assert (HN : forall w, has k w new = (w =? v)) by (intros w; unfold has; rewrite G; apply Z.eqb_sym).
  assert (SK : forall o, same_key [k] o new <-> get k o = Some v).
  { intros o. unfold same_key. rewrite Forall_cons_iff. unfold agree. split; [intros ((x & A & B) & _); congruence | intros A; split; [eauto | constructor]]. }
  induction U as [|o t S0|o t t' S0 U IH].
  - split; [intros w; cbn; rewrite HN; destruct (w =? v); auto |]. split; [repeat constructor; auto |]. cbn. rewrite G. intuition.
  - apply SK in S0. split; [| split].
    + intros w. cbn. rewrite HN. unfold has at 2. rewrite S0, (Z.eqb_sym v w). destruct (w =? v); auto.
    + cbn. now rewrite G, S0.
    + intros x. cbn. rewrite G, S0. intuition.
  - rewrite SK in S0. destruct IH as (A & B & C). split; [| split].
    + intros w. cbn. rewrite A. unfold has at 1 3. destruct (get k o) as [x|]; auto. destruct (x =? w) eqn:E; auto. apply Z.eqb_eq in E. subst. destruct (w =? v) eqn:F; auto. apply Z.eqb_eq in F. subst. congruence.
    + cbn. intros N. inversion N as [|? ? N1 N2]; subst. constructor; auto. rewrite C. intros [D|D]; auto.
    + intros x. cbn. rewrite C. tauto.
Qed.
Lemma cols_kept r t : t_cols t <> [] -> t_cols (update_table_row r t) = t_cols t.
Proof. unfold update_table_row. cbn. destruct (t_cols t); congruence. Qed.
Lemma update_table_cols r t : t_cols t <> [] -> update_table_row r t = update_row r t.
Proof. unfold update_table_row. destruct t as [[|c l] d s]; cbn; congruence. Qed.
Lemma cols_first r t : t_cols t = [] -> t_cols (update_table_row r t) = map (fun k => mkCol k None) (map fst r).
Proof. intros E. unfold update_table_row. rewrite E. cbn. now rewrite map_map. Qed.
Lemma last_app k v l r : last_with k v (l ++ [r]) = if has k v r then Some r else last_with k v l.
Proof.
  induction l as [|x l IH]; cbn; auto.
  rewrite IH. unfold has. destruct (match get k r with Some w => w =? v | None => false end); auto.
Qed.
Lemma latest cols k l : keys_of (mkTable cols [] None) = [k] -> Forall (fun r => get k r <> None) l -> let d := t_data (updates (new_table (Some cols)) l) in
  (forall v, find (has k v) d = last_with k v l) /\ NoDup (map (get k) d) /\ (forall x, In x (map (get k) d) <-> In x (map (get k) l)).
Proof.
  intros K. assert (CN : cols <> []) by (intros ->; discriminate).
  assert (I0 : forall l, t_cols (updates (new_table (Some cols)) l) = cols).
  { intros l0. induction l0 as [|r l0 IH] using rev_ind; auto. unfold updates in *. rewrite fold_left_app. cbn. rewrite <- IH at 2. apply cols_kept. now rewrite IH. }
  induction l as [|r l IH] using rev_ind; intros F d.
  - split; [auto | split; [constructor | cbn; tauto]].
  - apply Forall_app in F. destruct F as (F & FR). inversion FR as [|? ? R _]; subst. destruct (get k r) as [v|] eqn:G; [| congruence].
    specialize (IH F). destruct IH as (A & B & C). assert (E : d = t_data (update_table_row r (updates (new_table (Some cols)) l))) by (unfold d, updates; now rewrite fold_left_app). rewrite E. clear E d. set (t := updates (new_table (Some cols)) l) in *.
    assert (IT : t_cols t = cols) by apply I0.
    assert (KT : keys_of t = [k]) by (unfold keys_of in *; cbn [t_cols] in K; rewrite IT; exact K).
    rewrite update_table_cols by (rewrite IT; exact CN).
    assert (U : upserted [k] r (t_data t) (t_data (update_row r t))) by (rewrite <- KT; apply update_right; rewrite KT; [discriminate | now left]).
    destruct (upsert_one k v r _ _ U G) as (P & Q & S0). split; [| split; [auto |]].
    + intros w. rewrite P, last_app. unfold has at 2. rewrite G, (Z.eqb_sym v w), A. reflexivity.
    + intros x. rewrite S0, map_app, in_app_iff, C. cbn. rewrite G. intuition.
Qed.
(** ** No keys *)
Lemma all_rows cols l : keys_of (mkTable cols [] None) = [] -> t_data (updates (new_table (Some cols)) l) = l.
Proof.
  intros K. assert (NK : forall l, keys_of (updates (new_table (Some cols)) l) = []).
  { induction l0 as [|r l0 IH] using rev_ind; auto. unfold updates in *. rewrite fold_left_app. cbn [fold_left]. set (t := fold_left _ _ _) in *.
    destruct (t_cols t) as [|c cs] eqn:E.
    - unfold keys_of. rewrite cols_first by auto. induction r as [|f r IHr]; cbn; auto.
    - unfold keys_of in *. rewrite cols_kept by congruence. exact IH. }
  induction l as [|r l IH] using rev_ind; auto. pose proof (NK (l ++ [r])) as N1. unfold updates in *. rewrite fold_left_app in *. cbn [fold_left] in *. set (t := fold_left _ _ _) in *. transitivity (t_data t ++ [r]); [| now rewrite IH].
  unfold update_table_row. rewrite no_keys; auto.
Qed.

(** ** Records *)
Lemma record_bad t : show_record None t = t /\ show_record (Some Other) t = t. Proof. split; reflexivity. Qed.
Lemma record_array t l : show_record (Some (Array (map Object l))) t = updates t l.
Proof.
  assert (F : flatten (map Object l) = Some l) by (induction l as [|r l IH]; cbn; [auto | now rewrite IH]). cbn. now rewrite F.
Qed.
Lemma record_mixed t l : ~ (exists rs, l = map Object rs) -> show_record (Some (Array l)) t = t.
Proof.
  intros N. cbn. destruct (flatten l) as [x|] eqn:F; auto. exfalso. apply N. exists x. clear N. revert x F. induction l as [|j l IH]; intros x F; cbn in F; [injection F as <-; reflexivity |].
  destruct j; try discriminate. destruct (flatten l) as [y|]; [| discriminate]. injection F as <-. cbn. f_equal. auto.
Qed.
Lemma record_one t r : show_record (Some (Object r)) t = updates t [r]. Proof. reflexivity. Qed.

(** ** Keys and selection *)
Lemma press_data i t : i <> Clear -> t_data (press i t) = t_data t /\ t_cols (press i t) = t_cols t.
Proof. destruct i; cbn; auto. congruence. Qed.
Lemma press_clear t : press Clear t = mkTable (t_cols t) [] None. Proof. reflexivity. Qed.
Lemma press_ok i t : i <> PageDown -> sel_ok t -> sel_ok (press i t).
Proof.
  intros N. unfold sel_ok. destruct (Nat.eqb (length (t_data t)) 0) eqn:E.
  - destruct i; cbn; rewrite ?E; auto.
  - apply Nat.eqb_neq in E. assert (E0 : Nat.eqb (length (t_data t)) 0 = false) by now apply Nat.eqb_neq.
    destruct i; cbn; rewrite ?E0; auto; try congruence; try lia.
    + destruct (t_sel t) as [s|]; [| lia]. destruct (Nat.eqb s 0) eqn:F; [lia |]. lia.
    + destruct (t_sel t) as [s|]; [| lia]. destruct (Nat.leb (length (t_data t) - 1) s) eqn:F; [lia |]. apply Nat.leb_gt in F. lia.
    + destruct (t_sel t) as [s|]; match goal with |- context [if ?b then _ else _] => destruct b end; lia.
Qed.
Lemma page_down t s : sel_ok t -> t_sel t = Some s -> (sel_ok (press PageDown t) <-> (s + 5)%nat <> length (t_data t) \/ (length (t_data t) <= 5)%nat).
Proof.
  unfold sel_ok. intros H S0. rewrite S0 in H. unfold press. cbn [t_data t_sel t_cols]. rewrite S0. destruct (Nat.eqb (length (t_data t)) 0) eqn:E; [apply Nat.eqb_eq in E; lia |]. apply Nat.eqb_neq in E.
  destruct (Nat.ltb 5 (length (t_data t))) eqn:F; [apply Nat.ltb_lt in F | apply Nat.ltb_ge in F; lia]. destruct (Nat.leb (s + 5) (length (t_data t))) eqn:G; [apply Nat.leb_le in G | apply Nat.leb_gt in G]; lia.
Qed.
Lemma moves t s : t_sel t = Some s -> (s < length (t_data t))%nat ->
  t_sel (press Down t) = Some (if Nat.eqb (s + 1) (length (t_data t)) then 0 else s + 1)%nat /\
  t_sel (press Up t) = Some (match s with O => length (t_data t) - 1 | S p => p end)%nat /\
  t_sel (press Home t) = Some 0%nat /\ t_sel (press End t) = Some (length (t_data t) - 1)%nat.
Proof.
  intros S0 L. cbn. rewrite S0. assert (E : Nat.eqb (length (t_data t)) 0 = false) by (apply Nat.eqb_neq; lia). rewrite E. repeat split; f_equal.
  - destruct (Nat.leb (length (t_data t) - 1) s) eqn:A, (Nat.eqb (s + 1) (length (t_data t))) eqn:B; auto; [apply Nat.leb_le in A; apply Nat.eqb_neq in B | apply Nat.leb_gt in A; apply Nat.eqb_eq in B]; lia.
  - destruct s; cbn; auto. lia.
Qed.
Lemma pages t s : t_sel t = Some s -> (5 < length (t_data t))%nat ->
  t_sel (press PageUp t) = Some (s - 5)%nat /\ ((s + 5 < length (t_data t))%nat -> t_sel (press PageDown t) = Some (s + 5)%nat) /\ ((length (t_data t) < s + 5)%nat -> t_sel (press PageDown t) = Some (length (t_data t) - 1)%nat).
Proof.
  intros S0 L. unfold press. cbn [t_data t_sel t_cols]. rewrite S0. assert (E : Nat.eqb (length (t_data t)) 0 = false) by (apply Nat.eqb_neq; lia). assert (F : Nat.ltb 5 (length (t_data t)) = true) by (apply Nat.ltb_lt; lia). rewrite E, F.
  repeat split; intros H; [assert (G : Nat.leb (s + 5) (length (t_data t)) = true) by (apply Nat.leb_le; lia) | assert (G : Nat.leb (s + 5) (length (t_data t)) = false) by (apply Nat.leb_gt; lia)]; now rewrite G.
Qed.
Lemma few_rows t : (0 < length (t_data t) <= 5)%nat -> t_sel (press PageUp t) = Some 0%nat /\ t_sel (press PageDown t) = Some (length (t_data t) - 1)%nat.
Proof.
  intros L. unfold press. cbn [t_data t_sel t_cols]. assert (E : Nat.eqb (length (t_data t)) 0 = false) by (apply Nat.eqb_neq; lia). assert (F : Nat.ltb 5 (length (t_data t)) = false) by (apply Nat.ltb_ge; lia). now rewrite E, F.
Qed.
Lemma grows r t : (length (t_data t) <= length (t_data (update_table_row r t)))%nat /\ t_sel (update_table_row r t) = t_sel t.
Proof.
  split; [| reflexivity]. unfold update_table_row, update_row. cbn [t_data t_cols]. destruct (t_data t) as [|x l]; [cbn; lia |]. destruct (primary_keys _) as [|k ks]; [rewrite app_length; lia |].
  assert (G : forall n l0, (length l0 <= length (row_loop n (k :: ks) r l0))%nat).
  { intros n l0. induction l0 as [|y l0 IH]; cbn [row_loop length]; [lia |]. destruct (key_loop _ _ _ _ _ _); cbn [length]; lia. }
  apply G.
Qed.
Lemma record_ok j t : sel_ok t -> sel_ok (show_record j t).
Proof.
  assert (G1 : forall r t, sel_ok t -> sel_ok (update_table_row r t)).
  { intros r u. unfold sel_ok. destruct (grows r u) as (A & ->). destruct (t_sel u); auto. lia. }
  destruct j as [[r|l|]|]; cbn; auto. destruct (flatten l) as [x|]; auto. revert t. induction x as [|r x IH]; cbn; auto.
Qed.
Lemma selection cols l : Forall (fun e => e <> Press PageDown) l -> sel_ok (shown_after (new_table cols) l).
Proof.
  assert (G : forall l t, sel_ok t -> Forall (fun e => e <> Press PageDown) l -> sel_ok (shown_after t l)).
  { clear. induction l as [|e l IH]; intros t H F; auto. inversion F; subst. cbn. apply IH; auto. destruct e as [j|i]; cbn; [now apply record_ok | apply press_ok; auto; congruence]. }
  intros F. apply G; auto. exact Logic.I.
Qed.
Lemma cell t i j r c : nth_error (t_data t) i = Some r -> nth_error (t_cols t) j = Some c ->
  exists line, nth_error (cells t) i = Some line /\ nth_error line j = Some (get (c_key c) r).
Proof.
  intros A B. exists (map (fun c => get (c_key c) r) (t_cols t)). split.
  - unfold cells. now rewrite nth_error_map, A.
  - now rewrite nth_error_map, B.
Qed.
Lemma get_field k v r : NoDup (map fst r) -> get k r = Some v <-> In (k, v) r.
Proof.
  induction r as [|(a, x) r IH]; cbn; [intuition discriminate |]. intros N. inversion N as [|? ? N1 N2]; subst. destruct (a =? k) eqn:E.
  - apply Z.eqb_eq in E. subst. split; [intros [= <-]; auto |]. intros [H|H]; [congruence |]. exfalso. apply N1. apply in_map_iff. exists (k, v). auto.
  - apply Z.eqb_neq in E. rewrite IH by auto. intuition congruence.
Qed.

(** ** What is not so *)
Definition two_keys : list column := [mkCol 1 (Some true); mkCol 2 (Some true); mkCol 3 None].
Definition of (a b c : Z) : row := [(1, a); (2, b); (3, c)].
Lemma keys_refuted : ~ (forall cols l, keys_of (mkTable cols [] None) <> [] -> forall r, In r l -> exists x, In x (t_data (updates (new_table (Some cols)) l)) /\ same_key (keys_of (mkTable cols [] None)) r x).
Proof.
  intros C. destruct (C two_keys [of 1 1 10; of 1 2 20]) with (r := of 1 1 10) as (x & I0 & K); [discriminate | cbn; auto |].
  cbn in I0. destruct I0 as [<-|[]]. inversion K as [|? ? _ K2]; subst. inversion K2 as [|? ? (v & A & B) _]; subst. cbn in A, B. congruence.
Qed.
Lemma second_refuted : ~ (forall t r, (1 < length (t_data t))%nat -> keys_of t <> [] -> upserted (keys_of t) r (t_data t) (t_data (update_row r t))).
Proof.
  intros C. specialize (C (mkTable two_keys [of 1 1 10; of 2 2 20] None) (of 3 1 30)). cbn in C. specialize (C ltac:(lia) ltac:(discriminate)).
  inversion C as [|? ? S0|]; subst. inversion S0 as [|? ? (v & A & B) _]; subst. cbn in A, B. congruence.
Qed.
Lemma page_refuted : ~ (forall t, sel_ok t -> sel_ok (press PageDown t)).
Proof.
  intros C. specialize (C (mkTable [] [of 1 1 1; of 1 1 1; of 1 1 1; of 1 1 1; of 1 1 1; of 1 1 1] (Some 1%nat))). unfold sel_ok in C. cbn in C. lia.
Qed.
Lemma columns_refuted : ~ (forall l k v, (exists r, In r l /\ In (k, v) r) -> In k (map c_key (t_cols (updates (new_table None) l)))).
Proof. intros C. specialize (C [[(1, 5)]; [(2, 6)]] 2 6). cbn in C. destruct C as [C|[]]; [| discriminate]. exists [(2, 6)]. cbn. auto. Qed.
