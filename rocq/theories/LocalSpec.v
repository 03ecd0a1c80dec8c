(** What the properties of the local metadata storage say. *)
From Verif Require Export LocalModel.

(** What a client that asks for an object now is given, the store being read from
    the disk if it is not in memory. *)
Definition visible (s : sys) (k : kind) (n : name) : option obj :=
  match lookup k (y_stores s) with
  | Some h => match nth_error (y_heap s) h with Some t => lookup n (t_data t) | None => None end
  | None => match load_files (files s k) with Some d => lookup n d | None => None end
  end.
Definition readable (s : sys) (k : kind) : Prop := load_files (files s k) <> None.

(** * Histories *)
Inductive runs (ok : mach -> event -> Prop) : mach -> list event -> mach -> Prop :=
  | runs_nil s : runs ok s [] s
  | runs_cons s e s' es s'' : ok s e -> mach_step s e = Some s' -> runs ok s' es s'' -> runs ok s (e :: es) s''.
Definition any_event (s : mach) (e : event) : Prop := True.
(** No file operation fails, and the process does not stop while it writes. *)
Definition no_fault (e : event) : Prop :=
  match e with Run _ f => f = Fine | CrashIn _ => False | _ => True end.
(** No store is loaded a second time. *)
Definition no_race (s : mach) (e : event) : Prop :=
  match e with
  | Run i _ => forall k c, nth_error (c_tasks s) i = Some (Do (Load k) c) -> lookup k (y_stores (c_sys s)) = None
  | _ => True
  end.
Definition calm (s : mach) (e : event) : Prop := no_fault e /\ no_race s e.

(** [e] is the write of an object, or its removal; with what is then stored. *)
Definition writes (s : mach) (e : event) (k : kind) (n : name) : option (option obj) :=
  match e with
  | Run i f =>
      match nth_error (c_tasks s) i with
      | Some (Do (Put h o) _) =>
          match nth_error (y_heap (c_sys s)) h, micro_step (c_sys s) (Put h o) f with
          | Some t, Some (_, RPut o') => if Nat.eqb (t_kind t) k && Nat.eqb (o_name o) n then Some (Some o') else None
          | _, _ => None
          end
      | Some (Do (Remove h n') _) =>
          match nth_error (y_heap (c_sys s)) h with
          | Some t => if Nat.eqb (t_kind t) k && Nat.eqb n' n then Some None else None
          | None => None
          end
      | _ => None
      end
  | _ => None
  end.
(** All writes and removals of an object in a history, in order. *)
Fixpoint history (s : mach) (es : list event) (k : kind) (n : name) : list (option obj) :=
  match es with
  | [] => []
  | e :: t =>
      match mach_step s e with
      | Some s' => match writes s e k n with Some w => [w] | None => [] end ++ history s' t k n
      | None => []
      end
  end.

(** * An operation that runs alone *)
Fixpoint exec (p : prog) (s : sys) : option (sys * reply) :=
  match p with
  | Ret r => Some (s, r)
  | Do m k => match micro_step s m Fine with Some (s', r) => exec (k r) s' | None => None end
  end.

(** Operations one after the other; the last list is what the receivers took from
    the store at [h]. *)
Inductive turns (owner : kind -> kind) (ok : sys -> op -> reply -> Prop) (h : nat) : sys -> list (Z * update) -> sys -> Prop :=
  | turns_nil s : turns owner ok h s [] s
  | turns_op s a s' r l s'' : exec (prog_of owner a) s = Some (s', r) -> ok s a r -> turns owner ok h s' l s'' -> turns owner ok h s l s''
  | turns_recv s h' k v d x q l s'' :
      nth_error (y_heap s) h' = Some (mkStore k v d (x :: q)) ->
      turns owner ok h (mkSys (set_nth h' (mkStore k v d q) (y_heap s)) (y_stores s) (y_disk s)) l s'' ->
      turns owner ok h s (if Nat.eqb h' h then x :: l else l) s''.
Definition any_op (s : sys) (a : op) (r : reply) : Prop := True.
(** The same, with restarts in between. *)
Inductive lives (owner : kind -> kind) (ok : sys -> op -> reply -> Prop) : sys -> sys -> Prop :=
  | lives_nil s : lives owner ok s s
  | lives_op s a s' r s'' : exec (prog_of owner a) s = Some (s', r) -> ok s a r -> lives owner ok s' s'' -> lives owner ok s s''
  | lives_recv s h k v d x q s'' :
      nth_error (y_heap s) h = Some (mkStore k v d (x :: q)) ->
      lives owner ok (mkSys (set_nth h (mkStore k v d q) (y_heap s)) (y_stores s) (y_disk s)) s'' -> lives owner ok s s''
  | lives_restart s s'' : lives owner ok (c_sys (restart (y_disk s))) s'' -> lives owner ok s s''.

(** * Watching *)

(** A list is taken, and then the updates with at least its version are applied to it. *)
Definition follow (v : Z) (view : list (name * obj)) (x : Z * update) : list (name * obj) :=
  if v <=? fst x then match snd x with Mod o => put (o_name o) o view | Del o => del (o_name o) view end else view.

Definition listing (l : list obj) : list (name * obj) := fold_right (fun o view => put (o_name o) o view) [] l.
(** The updates that wait for a receiver. *)
Definition waiting (s : sys) (h : nat) : list (Z * update) := match nth_error (y_heap s) h with Some t => t_queue t | None => [] end.

(** Nobody takes updates from the store at [h]. *)
Definition nobody_receives (h : nat) (s : mach) (e : event) : Prop :=
  match e with Recv h' => h' <> h | Crash | CrashIn _ => False | _ => True end.

(** * Owners *)

(** [c], of kind [k], is among the children of [o]. *)
Definition listed (o : obj) (k : kind) (c : item) : Prop :=
  exists m l, i_children (o_item o) = Some m /\ In (k, l) m /\ In c l.

Definition ok_reply (r : reply) : Prop := r <> RErr.
(** Two levels: objects with an owner are created once, for an owner that is there
    and has no owner itself, and then not changed. Others are changed by those who
    know their latest metadata. *)
Definition tidy (owner : kind -> kind) (s : sys) (a : op) (r : reply) : Prop :=
  ok_reply r /\
  match a with
  | Apply k o =>
      visible s k (o_name o) = None /\ i_children (o_item o) = None /\
      match i_parent (o_item o) with
      | None => True
      | Some p => o_rev o = 0 /\ exists po, visible s (owner k) (i_id p) = Some po /\ i_parent (o_item po) = None
      end
  | Delete _ _ | List _ => True
  | UpdateSpec k i _ | UpdateStatus k i _ =>
      i_parent i = None /\
      match visible s k (i_id i) with Some o => o_item o = i | None => i_children i = None end
  | UpdateByKey k n _ => match visible s k n with Some o => i_parent (o_item o) = None | None => True end
  end.
