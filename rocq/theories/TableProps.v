(** The table of the consumer. *)
From Coq Require Import ZArith List Bool.
Import ListNotations.
From Verif Require Import Base TableModel TableSpec TableProofs.
Open Scope Z_scope.

(** With one primary key the table has one row for each text of the key that was in a record, and it is the last such record. *)
Theorem C122_latest : forall cols k l, keys_of (mkTable cols [] None) = [k] -> Forall (fun r => get k r <> None) l -> let d := t_data (updates (new_table (Some cols)) l) in
  (forall v, find (has k v) d = last_with k v l) /\ NoDup (map (get k) d) /\ (forall x, In x (map (get k) d) <-> In x (map (get k) l)).
Proof. exact latest. Qed.
Print Assumptions C122_latest.
Example C122_latest_example : t_data (updates (new_table (Some [mkCol 1 (Some true); mkCol 2 None])) [of 1 1 1; of 2 1 2; of 1 3 3]) = [of 1 3 3; of 2 1 2].
Proof. reflexivity. Qed.

(** With one key, or fewer keys than rows, a new row takes the place of the row that agrees in all keys, or is appended. *)
Theorem C122_update_right : forall new t, keys_of t <> [] -> (length (keys_of t) = 1 \/ length (keys_of t) < length (t_data t))%nat ->
  upserted (keys_of t) new (t_data t) (t_data (update_row new t)).
Proof. exact update_right. Qed.
Print Assumptions C122_update_right.
Example C122_update_right_example : keys_of (mkTable two_keys [of 1 1 1; of 2 1 1; of 2 2 1] None) = [1; 2].
Proof. reflexivity. Qed.

(** Otherwise only one of the keys is looked at, the one whose number is the number of rows. *)
Theorem C122_update_short : forall new t k, (0 < length (t_data t) <= length (keys_of t))%nat -> nth_error (keys_of t) (length (t_data t) - 1) = Some k ->
  upserted [k] new (t_data t) (t_data (update_row new t)).
Proof. exact update_short. Qed.
Print Assumptions C122_update_short.
Example C122_update_short_example : nth_error (keys_of (mkTable two_keys [of 1 1 1] None)) 0 = Some 1.
Proof. reflexivity. Qed.

(** What a new row should do is determined. *)
Theorem C122_upserted_det : forall keys new l a b, upserted keys new l a -> upserted keys new l b -> a = b.
Proof. exact upserted_det. Qed.
Print Assumptions C122_upserted_det.
Example C122_upserted_det_example : upserted [1] (of 1 2 2) [of 1 1 1] [of 1 2 2].
Proof. apply up_here. repeat constructor. exists 1. auto. Qed.

(** Without primary keys the table has all rows in order. *)
Theorem C122_all_rows : forall cols l, keys_of (mkTable cols [] None) = [] -> t_data (updates (new_table (Some cols)) l) = l.
Proof. exact all_rows. Qed.
Print Assumptions C122_all_rows.
Example C122_all_rows_example : keys_of (mkTable [mkCol 1 None; mkCol 2 (Some false)] [] None) = [].
Proof. reflexivity. Qed.

(** If no columns are given they are the fields of the first row. *)
Theorem C122_cols_first : forall r t, t_cols t = [] -> t_cols (update_table_row r t) = map (fun k => mkCol k None) (map fst r).
Proof. exact cols_first. Qed.
Print Assumptions C122_cols_first.
Example C122_cols_first_example : t_cols (updates (new_table None) [of 1 1 1; of 2 2 2]) = [mkCol 1 None; mkCol 2 None; mkCol 3 None].
Proof. reflexivity. Qed.

(** After that they stay. *)
Theorem C122_cols_kept : forall r t, t_cols t <> [] -> t_cols (update_table_row r t) = t_cols t.
Proof. exact cols_kept. Qed.
Print Assumptions C122_cols_kept.
Example C122_cols_kept_example : t_cols (new_table (Some two_keys)) <> [].
Proof. discriminate. Qed.

(** A cell shows the field of its column, and is blank if the row has none. *)
Theorem C122_cell : forall t i j r c, nth_error (t_data t) i = Some r -> nth_error (t_cols t) j = Some c ->
  exists line, nth_error (cells t) i = Some line /\ nth_error line j = Some (get (c_key c) r).
Proof. exact cell. Qed.
Print Assumptions C122_cell.
Example C122_cell_example : cells (mkTable two_keys [of 1 2 3; [(1, 5)]] None) = [[Some 1; Some 2; Some 3]; [Some 5; None; None]].
Proof. reflexivity. Qed.

(** The field of a row is the one of the key. *)
Theorem C122_get : forall k v r, NoDup (map fst r) -> get k r = Some v <-> In (k, v) r.
Proof. exact get_field. Qed.
Print Assumptions C122_get.
Example C122_get_example : NoDup (map fst (of 1 2 3)) /\ get 2 (of 1 2 3) = Some 2.
Proof. split; [repeat constructor; cbn; intuition discriminate | reflexivity]. Qed.

(** A record that is an object is one row. *)
Theorem C122_record_one : forall t r, show_record (Some (Object r)) t = updates t [r].
Proof. exact record_one. Qed.
Print Assumptions C122_record_one.
Example C122_record_one_example : t_data (show_record (Some (Object (of 1 1 1))) (new_table None)) = [of 1 1 1].
Proof. reflexivity. Qed.

(** An array of objects is one row after the other. *)
Theorem C122_record_array : forall t l, show_record (Some (Array (map Object l))) t = updates t l.
Proof. exact record_array. Qed.
Print Assumptions C122_record_array.
Example C122_record_array_example : t_data (show_record (Some (Array [Object (of 1 1 1); Object (of 2 1 1)])) (new_table None)) = [of 1 1 1; of 2 1 1].
Proof. reflexivity. Qed.

(** An array with anything else in it changes nothing. *)
Theorem C122_record_mixed : forall t l, ~ (exists rs, l = map Object rs) -> show_record (Some (Array l)) t = t.
Proof. exact record_mixed. Qed.
Print Assumptions C122_record_mixed.
Example C122_record_mixed_example : ~ (exists rs, [Object (of 1 1 1); Other] = map Object rs).
Proof. intros ([|a [|b l]] & H); discriminate. Qed.

(** Other records change nothing. *)
Theorem C122_record_bad : forall t, show_record None t = t /\ show_record (Some Other) t = t.
Proof. exact record_bad. Qed.
Print Assumptions C122_record_bad.
Example C122_record_bad_example : show_record None (mkTable two_keys [of 1 1 1] None) = mkTable two_keys [of 1 1 1] None.
Proof. reflexivity. Qed.

(** Moving in the table does not change it. *)
Theorem C122_press_data : forall i t, i <> Clear -> t_data (press i t) = t_data t /\ t_cols (press i t) = t_cols t.
Proof. exact press_data. Qed.
Print Assumptions C122_press_data.
Example C122_press_data_example : Down <> Clear.
Proof. discriminate. Qed.

(** Clearing it keeps the columns. *)
Theorem C122_clear : forall t, press Clear t = mkTable (t_cols t) [] None.
Proof. exact press_clear. Qed.
Print Assumptions C122_clear.
Example C122_clear_example : press Clear (mkTable two_keys [of 1 1 1] (Some 0%nat)) = new_table (Some two_keys).
Proof. reflexivity. Qed.

(** A record never removes a row, and leaves the selection. *)
Theorem C122_grows : forall r t, (length (t_data t) <= length (t_data (update_table_row r t)))%nat /\ t_sel (update_table_row r t) = t_sel t.
Proof. exact grows. Qed.
Print Assumptions C122_grows.
Example C122_grows_example : length (t_data (updates (new_table None) [of 1 1 1; of 1 1 1])) = 2%nat.
Proof. reflexivity. Qed.

(** The selection moves by one row and around. *)
Theorem C122_moves : forall t s, t_sel t = Some s -> (s < length (t_data t))%nat ->
  t_sel (press Down t) = Some (if Nat.eqb (s + 1) (length (t_data t)) then 0 else s + 1)%nat /\
  t_sel (press Up t) = Some (match s with O => length (t_data t) - 1 | S p => p end)%nat /\
  t_sel (press Home t) = Some 0%nat /\ t_sel (press End t) = Some (length (t_data t) - 1)%nat.
Proof. exact moves. Qed.
Print Assumptions C122_moves.
Example C122_moves_example : t_sel (press Down (mkTable [] [of 1 1 1; of 2 2 2] (Some 1%nat))) = Some 0%nat.
Proof. reflexivity. Qed.

(** A page is five rows, up to the first and the last. *)
Theorem C122_pages : forall t s, t_sel t = Some s -> (5 < length (t_data t))%nat ->
  t_sel (press PageUp t) = Some (s - 5)%nat /\ ((s + 5 < length (t_data t))%nat -> t_sel (press PageDown t) = Some (s + 5)%nat) /\ ((length (t_data t) < s + 5)%nat -> t_sel (press PageDown t) = Some (length (t_data t) - 1)%nat).
Proof. exact pages. Qed.
Print Assumptions C122_pages.
Example C122_pages_example : t_sel (press PageDown (mkTable [] (repeat (of 1 1 1) 9) (Some 2%nat))) = Some 7%nat.
Proof. reflexivity. Qed.

(** In a short table it is the first and the last row. *)
Theorem C122_few_rows : forall t, (0 < length (t_data t) <= 5)%nat -> t_sel (press PageUp t) = Some 0%nat /\ t_sel (press PageDown t) = Some (length (t_data t) - 1)%nat.
Proof. exact few_rows. Qed.
Print Assumptions C122_few_rows.
Example C122_few_rows_example : t_sel (press PageDown (mkTable [] (repeat (of 1 1 1) 3) None)) = Some 2%nat.
Proof. reflexivity. Qed.

(** The row selected is there, if no page down is pressed. *)
Theorem C122_selection : forall cols l, Forall (fun e => e <> Press PageDown) l -> sel_ok (shown_after (new_table cols) l).
Proof. exact selection. Qed.
Print Assumptions C122_selection.
Example C122_selection_example : t_sel (shown_after (new_table None) [Record (Some (Object (of 1 1 1))); Press End; Record (Some (Object (of 2 1 1))); Press Down; Press Up]) = Some 0%nat.
Proof. reflexivity. Qed.

(** A page down goes past the end exactly if five rows are left, with the selected one. *)
Theorem C122_page_down : forall t s, sel_ok t -> t_sel t = Some s -> (sel_ok (press PageDown t) <-> (s + 5)%nat <> length (t_data t) \/ (length (t_data t) <= 5)%nat).
Proof. exact page_down. Qed.
Print Assumptions C122_page_down.
Example C122_page_down_example : sel_ok (mkTable [] (repeat (of 1 1 1) 9) (Some 4%nat)).
Proof. unfold sel_ok. cbn. repeat constructor. Qed.

(** With two primary keys the row of a record may be lost: the second record with the same first key takes the place of the first. *)
Theorem C122_keys_refuted : ~ (forall cols l, keys_of (mkTable cols [] None) <> [] -> forall r, In r l -> exists x, In x (t_data (updates (new_table (Some cols)) l)) /\ same_key (keys_of (mkTable cols [] None)) r x).
Proof. exact keys_refuted. Qed.
Print Assumptions C122_keys_refuted.

(** In a table of two rows a row is replaced that differs in the first key. *)
Theorem C122_second_refuted : ~ (forall t r, (1 < length (t_data t))%nat -> keys_of t <> [] -> upserted (keys_of t) r (t_data t) (t_data (update_row r t))).
Proof. exact second_refuted. Qed.
Print Assumptions C122_second_refuted.

(** A page down may select a row that is not there. *)
Theorem C122_page_refuted : ~ (forall t, sel_ok t -> sel_ok (press PageDown t)).
Proof. exact page_refuted. Qed.
Print Assumptions C122_page_refuted.

(** Fields that the first record does not have are not shown, if no columns are given. *)
Theorem C122_columns_refuted : ~ (forall l k v, (exists r, In r l /\ In (k, v) r) -> In k (map c_key (t_cols (updates (new_table None) l)))).
Proof. exact columns_refuted. Qed.
Print Assumptions C122_columns_refuted.
