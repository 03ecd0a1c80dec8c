(** Model of the metadata storage of a local cluster: topics, partitions, SPUs
    and other objects, each in a file of its own.
    Source: crates/fluvio-stream-dispatcher/src/metadata/local.rs.

    Simplifications:
    - kinds of objects (Spec::LABEL) and names (keys) are numbers; the key of an
      object and the id in its metadata are the same (apply sets the id, line 170);
      the spec and the status are numbers;
    - a file is either whole or not readable: writing and reading YAML is not
      modelled;
    - revisions do not overflow (u64);
    - maps are lists; the map of children is sorted by kind, so that equality of
      maps is equality of lists, and children are deleted in that order;
    - a step is what happens while a lock is held, or one atomic operation. *)
From Coq Require Export List ZArith Bool Lia Arith.
Export ListNotations.
Open Scope Z_scope.

Notation kind := nat.
Notation name := nat.

(** * Maps *)
Fixpoint lookup {A} (k : nat) (l : list (nat * A)) : option A :=
  match l with [] => None | (k', a) :: t => if Nat.eqb k k' then Some a else lookup k t end.
Fixpoint put {A} (k : nat) (a : A) (l : list (nat * A)) : list (nat * A) :=
  match l with
  | [] => [(k, a)]
  | (k', b) :: t => if Nat.eqb k k' then (k, a) :: t else if Nat.ltb k k' then (k, a) :: l else (k', b) :: put k a t
  end.
Fixpoint del {A} (k : nat) (l : list (nat * A)) : list (nat * A) :=
  match l with [] => [] | (k', b) :: t => if Nat.eqb k k' then del k t else (k', b) :: del k t end.
Fixpoint set_nth {A} (i : nat) (x : A) (l : list A) : list A :=
  match i, l with _, [] => [] | O, _ :: t => x :: t | S j, a :: t => a :: set_nth j x t end.

(** * Metadata (lines 7-15) *)
Inductive item := mkItem { i_id : name; i_rev : Z; i_parent : option item; i_children : option (list (kind * list item)) }.
Record obj := mkObj { o_item : item; o_spec : Z; o_status : Z }.
Definition o_name (o : obj) : name := i_id (o_item o).
Definition o_rev (o : obj) : Z := i_rev (o_item o).
Definition with_item (o : obj) (i : item) : obj := mkObj i (o_spec o) (o_status o).
Definition with_rev (i : item) (r : Z) : item := mkItem (i_id i) r (i_parent i) (i_children i).
Definition without_parent (i : item) : item := mkItem (i_id i) (i_rev i) None (i_children i).

(** derive(PartialEq) (line 7): all fields, revisions and children too. *)
Fixpoint item_eqb (a b : item) {struct a} : bool :=
  match a, b with
  | mkItem n r p c, mkItem n' r' p' c' =>
      Nat.eqb n n' && (r =? r')
      && match p, p' with Some x, Some y => item_eqb x y | None, None => true | _, _ => false end
      && match c, c' with
         | None, None => true
         | Some x, Some y =>
             (fix maps (x y : list (kind * list item)) {struct x} : bool :=
                match x, y with
                | [], [] => true
                | (k, l) :: x', (k', l') :: y' =>
                    Nat.eqb k k'
                    && (fix items (l l' : list item) {struct l} : bool :=
                          match l, l' with [], [] => true | u :: t, v :: t' => item_eqb u v && items t t' | _, _ => false end) l l'
                    && maps x' y'
                | _, _ => false
                end) x y
         | _, _ => false
         end
  end.
(** put_child (lines 66-79), remove_child (lines 80-91) *)
Definition put_child (i : item) (k : kind) (c : item) : item :=
  let m := match i_children i with Some m => m | None => [] end in
  let l := match lookup k m with
           | Some l => if existsb (fun x => item_eqb x c) l then l else l ++ [c]
           | None => [c]
           end in
  mkItem (i_id i) (i_rev i) (i_parent i) (Some (put k l m)).
Definition remove_child (i : item) (k : kind) (c : item) : item :=
  let m := match i_children i with Some m => m | None => [] end in
  let m' := match lookup k m with
            | Some l => match filter (fun x => negb (item_eqb x c)) l with [] => del k m | l' => put k l' m end
            | None => m
            end in
  mkItem (i_id i) (i_rev i) (i_parent i) (Some m').

(** * The stores *)

(** SpecUpdate (lines 299-303) with its store_revision *)
Inductive update := Mod (o : obj) | Del (o : obj).
(** SpecStore (lines 283-290); the two ends of the channel are one queue: all
    receivers take from it *)
Record store := mkStore { t_kind : kind; t_version : Z; t_data : list (name * obj); t_queue : list (Z * update) }.
Inductive file := Whole (o : obj) | Torn.
(** LocalMetadataStorage (lines 121-124): [y_stores] is the map of stores, by their position in
    [y_heap], the stores that tasks can have a reference to; [y_disk] the files *)
Record sys := mkSys { y_heap : list store; y_stores : list (kind * nat); y_disk : list (kind * list (name * file)) }.
Definition files (s : sys) (k : kind) : list (name * file) := match lookup k (y_disk s) with Some l => l | None => [] end.
Definition set_files (s : sys) (k : kind) (l : list (name * file)) : list (kind * list (name * file)) := put k l (y_disk s).

(** MAX_UPDATES_CAPACITY (line 119) *)
Definition max_updates : nat := 100.

(** SpecStore::load, SpecPointer::load (lines 381-411, 552-558): one bad file and
    there is no store. *)
Fixpoint load_files (l : list (name * file)) : option (list (name * obj)) :=
  match l with
  | [] => Some []
  | (_, Torn) :: _ => None
  | (_, Whole o) :: t => match load_files t with Some d => Some (put (o_name o) o d) | None => None end
  end.

(** * Steps *)
Inductive micro :=
  | Look (k : kind)                   (* get_store, lines 314-316; get_store_by_key, lines 371-377 *)
  | Load (k : kind)                   (* get_store, lines 318-323: the map is not looked at again *)
  | Get (h : nat) (n : name)          (* try_retrieve_item, lines 430-441 *)
  | Put (h : nat) (o : obj)           (* apply, lines 473-491; flush, lines 576-580 *)
  | Remove (h : nat) (n : name)       (* delete_item, lines 453-462; delete, lines 570-574 *)
  | Number (h : nat)                  (* send_update, lines 529-532 *)
  | Send (h : nat) (v : Z) (u : update)  (* send_update, lines 534-536 *)
  | Version (h : nat) | All (h : nat).   (* retrieve_items, lines 413-428 *)
Inductive reply := RUnit | RErr | RStore (h : option nat) | RObj (o : option obj) | RPut (o : obj) | RNum (v : Z) | RAll (l : list obj) | RList (v : Z) (l : list obj).

(** What may go wrong with a file: nothing; the file is not touched (it cannot be
    created or removed); it is created, and then the write fails. *)
Inductive fault := Fine | Untouched | Halfway.

Definition micro_step (s : sys) (m : micro) (f : fault) : option (sys * reply) :=
  match m with
  | Look k => Some (s, RStore (lookup k (y_stores s)))
  | Load k =>
      match load_files (files s k) with
      | None => Some (s, RErr)
      | Some d => Some (mkSys (y_heap s ++ [mkStore k 0 d []]) (put k (length (y_heap s)) (y_stores s)) (y_disk s), RStore (Some (length (y_heap s))))
      end
  | Get h n => match nth_error (y_heap s) h with Some t => Some (s, RObj (lookup n (t_data t))) | None => None end
  | Put h o =>
      match nth_error (y_heap s) h with
      | None => None
      | Some t =>
          let write (o' : obj) :=
            let heap := set_nth h (mkStore (t_kind t) (t_version t) (put (o_name o) o' (t_data t)) (t_queue t)) (y_heap s) in
            match f with
            | Fine => Some (mkSys heap (y_stores s) (set_files s (t_kind t) (put (o_name o) (Whole o') (files s (t_kind t)))), RPut o')
            | Untouched => Some (mkSys heap (y_stores s) (y_disk s), RErr)
            | Halfway => Some (mkSys heap (y_stores s) (set_files s (t_kind t) (put (o_name o) Torn (files s (t_kind t)))), RErr)
            end in
          match lookup (o_name o) (t_data t) with
          | Some prev => if o_rev o <? o_rev prev then Some (s, RErr) else write (with_item o (with_rev (o_item o) (o_rev prev + 1)))
          | None => write o
          end
      end
  | Remove h n =>
      match nth_error (y_heap s) h with
      | None => None
      | Some t =>
          match lookup n (t_data t) with
          | None => Some (s, RObj None)
          | Some o =>
              Some (mkSys (set_nth h (mkStore (t_kind t) (t_version t) (del n (t_data t)) (t_queue t)) (y_heap s)) (y_stores s)
                      (match f with Fine => set_files s (t_kind t) (del n (files s (t_kind t))) | _ => y_disk s end), RObj (Some o))
          end
      end
  | Number h =>
      match nth_error (y_heap s) h with
      | None => None
      | Some t => Some (mkSys (set_nth h (mkStore (t_kind t) (t_version t + 1) (t_data t) (t_queue t)) (y_heap s)) (y_stores s) (y_disk s), RNum (t_version t))
      end
  (* [None]: the sender waits *)
  | Send h v u =>
      match nth_error (y_heap s) h with
      | None => None
      | Some t =>
          if Nat.ltb (length (t_queue t)) max_updates
          then Some (mkSys (set_nth h (mkStore (t_kind t) (t_version t) (t_data t) (t_queue t ++ [(v, u)])) (y_heap s)) (y_stores s) (y_disk s), RUnit)
          else None
      end
  | Version h => match nth_error (y_heap s) h with Some t => Some (s, RNum (t_version t)) | None => None end
  | All h => match nth_error (y_heap s) h with Some t => Some (s, RAll (map snd (t_data t))) | None => None end
  end.

(** * The operations, as sequences of steps *)
Inductive prog := Ret (r : reply) | Do (m : micro) (k : reply -> prog).

(** get_store, lines 312-326 *)
Definition get_store (k : kind) (c : nat -> prog) : prog :=
  Do (Look k) (fun r => match r with
                        | RStore (Some h) => c h
                        | _ => Do (Load k) (fun r => match r with RStore (Some h) => c h | _ => Ret RErr end)
                        end).
(** send_update, lines 528-537 *)
Definition send_update (h : nat) (u : update) (c : prog) : prog :=
  Do (Number h) (fun r => match r with RNum v => Do (Send h v u) (fun _ => c) | _ => Ret RErr end).
(** SpecStore::apply, lines 469-494 *)
Definition store_apply (h : nat) (o : obj) (c : prog) : prog :=
  Do (Put h o) (fun r => match r with RPut o' => send_update h (Mod o') c | _ => Ret RErr end).
(** SpecStore::delete_item, lines 452-467 *)
Definition store_delete (h : nat) (n : name) (c : prog) : prog :=
  Do (Remove h n) (fun r => match r with RObj (Some o) => send_update h (Del o) c | _ => c end).
(** link_parent, unlink_parent, lines 341-369; [owner k]: the kind of the owners
    of objects of kind [k] (Spec::Owner) *)
Definition relink (owner : kind -> kind) (change : item -> kind -> item -> item) (k : kind) (p ch : item) (c : prog) : prog :=
  get_store (owner k) (fun h => Do (Get h (i_id p)) (fun r =>
    match r with
    | RObj (Some o) => store_apply h (with_item o (change (o_item o) k (without_parent ch))) c
    | _ => Ret RErr
    end)).
(** delete_children, lines 328-339 *)
Fixpoint delete_list (h : nat) (l : list item) (c : prog) : prog :=
  match l with [] => c | i :: t => store_delete h (i_id i) (delete_list h t c) end.
Fixpoint delete_children (m : list (kind * list item)) (c : prog) : prog :=
  match m with
  | [] => c
  | (k, l) :: t => Do (Look k) (fun r => match r with RStore (Some h) => delete_list h l (delete_children t c) | _ => Ret RErr end)
  end.

Inductive op :=
  | Apply (k : kind) (o : obj)                      (* lines 163-177 *)
  | Delete (k : kind) (i : item)                    (* lines 140-154 and 156-161 *)
  | UpdateSpec (k : kind) (i : item) (spec : Z)     (* lines 179-203 *)
  | UpdateByKey (k : kind) (n : name) (spec : Z)    (* lines 205-228 *)
  | UpdateStatus (k : kind) (i : item) (status : Z) (* lines 230-246 and 264-280 *)
  | List (k : kind).                                (* lines 129-138 *)

Definition prog_of (owner : kind -> kind) (a : op) : prog :=
  match a with
  | Apply k o =>
      get_store k (fun h => store_apply h o
        (match i_parent (o_item o) with
         | Some p => relink owner put_child k p (o_item o) (Ret RUnit)
         | None => Ret RUnit
         end))
  | Delete k i =>
      get_store k (fun h => Do (Get h (i_id i)) (fun r =>
        match r with
        | RObj (Some o) =>
            let rest := delete_children (match i_children (o_item o) with Some m => m | None => [] end) (store_delete h (i_id i) (Ret RUnit)) in
            match i_parent (o_item o) with
            | Some p => relink owner remove_child k p (o_item o) rest
            | None => rest
            end
        | _ => Ret RUnit
        end))
  | UpdateSpec k i spec =>
      get_store k (fun h => Do (Get h (i_id i)) (fun r =>
        match r with
        | RObj (Some o) => store_apply h (mkObj i spec (o_status o)) (Ret RUnit)
        | _ => store_apply h (mkObj i spec 0) (Ret RUnit)
        end))
  | UpdateByKey k n spec =>
      get_store k (fun h => Do (Get h n) (fun r =>
        match r with
        | RObj (Some o) => store_apply h (mkObj (o_item o) spec (o_status o)) (Ret RUnit)
        | _ => store_apply h (mkObj (mkItem n 0 None None) spec 0) (Ret RUnit)
        end))
  | UpdateStatus k i status =>
      get_store k (fun h => Do (Get h (i_id i)) (fun r =>
        match r with
        | RObj (Some o) => store_apply h (mkObj i (o_spec o) status) (Do (Get h (i_id i)) (fun r => match r with RObj (Some o') => Ret (RObj (Some o')) | _ => Ret RErr end))
        | _ => Ret RErr
        end))
  | List k =>
      get_store k (fun h => Do (Version h) (fun r =>
        match r with
        | RNum v => Do (All h) (fun r => match r with RAll l => Ret (RList v l) | _ => Ret RErr end)
        | _ => Ret RErr
        end))
  end.

(** * The machine: tasks, receivers and crashes *)
Record mach := mkMach { c_sys : sys; c_tasks : list prog }.
Inductive event :=
  | Spawn (p : prog)
  | Run (i : nat) (f : fault)         (* a step of a task *)
  | Recv (h : nat)                    (* a receiver takes an update *)
  | Crash                             (* the process stops and starts again *)
  | CrashIn (i : nat).                (* it stops while a task writes a file *)
Definition restart (d : list (kind * list (name * file))) : mach := mkMach (mkSys [] [] d) [].
Definition mach_step (s : mach) (e : event) : option mach :=
  match e with
  | Spawn p => Some (mkMach (c_sys s) (c_tasks s ++ [p]))
  | Run i f =>
      match nth_error (c_tasks s) i with
      | Some (Do m k) =>
          match micro_step (c_sys s) m f with
          | Some (y, r) => Some (mkMach y (set_nth i (k r) (c_tasks s)))
          | None => None
          end
      | _ => None
      end
  | Recv h =>
      match nth_error (y_heap (c_sys s)) h with
      | Some (mkStore k v d (_ :: q)) => Some (mkMach (mkSys (set_nth h (mkStore k v d q) (y_heap (c_sys s))) (y_stores (c_sys s)) (y_disk (c_sys s))) (c_tasks s))
      | _ => None
      end
  | Crash => Some (restart (y_disk (c_sys s)))
  | CrashIn i =>
      match nth_error (c_tasks s) i with
      | Some (Do (Put h o) k) => match micro_step (c_sys s) (Put h o) Halfway with Some (y, _) => Some (restart (y_disk y)) | None => None end
      | _ => None
      end
  end.
Definition mach0 : mach := restart [].
