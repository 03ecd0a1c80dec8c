(** The interactive table of the consumer: rows, columns and selection.
    Source: crates/fluvio-cli/src/client/consume (table_format.rs, record_format.rs).

    Keys and texts are numbers.  A JSON object is the list of its fields in the order of
    the keys, each once, with the text that is shown for the value.  Drawing is not
    modelled. *)
Require Import List. Import ListNotations.
From Verif Require Import Base.

Definition row := list (Z * Z).
(** [BTreeMap::get] *)
Fixpoint get (k : Z) (r : row) : option Z :=
  match r with [] => None | (a, v) :: t => if a =? k then Some v else get k t end.

(** [TableFormatColumnConfig], as far as it is used; table_format.rs:21-30 [TableModel] *)
Record column := mkCol { c_key : Z; c_primary : option bool }.
Record table := mkTable { t_cols : list column; t_data : list row; t_sel : option nat }.
(** [new], [with_tableformat], table_format.rs:33-54 *)
Definition new_table (cols : option (list column)) : table := mkTable (match cols with Some l => l | None => [] end) [] None.

(** [get_primary_keys], table_format.rs:147-167; no keys is [None] there *)
Definition primary_keys (cols : list column) : list Z :=
  map c_key (filter (fun c => match c_primary c with Some b => b | None => false end) cols).

(** the loop over the keys, table_format.rs:90-116, whether to append: [n] is the number
    of rows and [i] the number of the key *)
Fixpoint key_loop (n i : nat) (keys : list Z) (old new : row) (append : bool) : bool :=
  match keys with
  | [] => append
  | k :: t =>
      match get k old with
      | Some v =>
          match get k new with
          | Some w =>
              if negb (v =? w) then key_loop n (S i) t old new true
              else if Nat.eqb (i + 1) n then false
              else key_loop n (S i) t old new append
          | None => key_loop n (S i) t old new true
          end
      | None => key_loop n (S i) t old new true
      end
  end.
(** the loop over the rows, table_format.rs:84-128 *)
Fixpoint row_loop (n : nat) (keys : list Z) (new : row) (rows : list row) : list row :=
  match rows with
  | [] => [new]
  | r :: t => if key_loop n 0 keys r new false then r :: row_loop n keys new t else new :: t
  end.
(** [update_row], table_format.rs:68-135 *)
Definition update_row (new : row) (t : table) : table :=
  let rows :=
    match t_data t with
    | [] => [new]
    | _ => match primary_keys (t_cols t) with
           | [] => t_data t ++ [new]
           | keys => row_loop (length (t_data t)) keys new (t_data t)
           end
    end in
  mkTable (t_cols t) rows (t_sel t).
(** [update_table_row], record_format.rs:189-232 *)
Definition update_table_row (new : row) (t : table) : table :=
  let cols := match t_cols t with [] => map (fun f => mkCol (fst f) None) new | c => c end in
  update_row new (mkTable cols (t_data t) (t_sel t)).

(** what a record holds *)
Inductive json := Object (r : row) | Array (l : list json) | Other.
(** [flatten_json_array_updates], record_format.rs:235-249 *)
Fixpoint flatten (l : list json) : option (list row) :=
  match l with
  | [] => Some []
  | Object r :: t => match flatten t with Some x => Some (r :: x) | None => None end
  | _ :: _ => None
  end.
(** [format_fancy_table_record], record_format.rs:149-177; [None]: the record is no JSON *)
Definition show_record (j : option json) (t : table) : table :=
  match j with
  | Some (Object r) => update_table_row r t
  | Some (Array l) => match flatten l with Some x => fold_left (fun t r => update_table_row r t) x t | None => t end
  | _ => t
  end.

(** keys and mouse, table_format.rs:174-262, 273-317 *)
Inductive input := Clear | Up | Down | Home | End | PageUp | PageDown | Ignored.
Definition press (i : input) (t : table) : table :=
  let n := length (t_data t) in
  let select s := mkTable (t_cols t) (t_data t) (if Nat.eqb n 0 then t_sel t else Some s) in
  match i with
  | Clear => mkTable (t_cols t) [] None
  | Up => select match t_sel t with Some s => if Nat.eqb s 0 then (n - 1)%nat else (s - 1)%nat | None => 0%nat end
  | Down => select match t_sel t with Some s => if Nat.leb (n - 1) s then 0%nat else (s + 1)%nat | None => 0%nat end
  | Home => select 0%nat
  | End => select (n - 1)%nat
  | PageUp => select (if Nat.ltb 5 n then match t_sel t with Some s => (s - 5)%nat | None => 0%nat end else 0%nat)
  | PageDown => select (if Nat.ltb 5 n then match t_sel t with Some s => if Nat.leb (s + 5) n then (s + 5)%nat else (n - 1)%nat | None => 0%nat end else (n - 1)%nat)
  | Ignored => t
  end.

Inductive event := Record (j : option json) | Press (i : input).
Definition table_step (t : table) (e : event) : table := match e with Record j => show_record j t | Press i => press i t end.
Definition shown_after (t : table) (l : list event) : table := fold_left table_step l t.
(** [table_ui], table_format.rs:394-414: the cells, [None] is blank *)
Definition cells (t : table) : list (list (option Z)) := map (fun r => map (fun c => get (c_key c) r) (t_cols t)) (t_data t).
