(** What is expected of the table of consumer offsets. *)
From Coq Require Export Permutation.
From Verif Require Import KvModel WireSpec StorageSpec StreamSpec.

(** Topic and consumer names are strings of less than 2^15 bytes, the numbers
    fit their types. *)
Definition key_good (k : key) : Prop := str_ok (fst (fst k)) /\ in_u 32 (snd (fst k)) /\ str_ok (snd k).
Definition value_good (v : value) : Prop := in_s 64 (fst v) /\ in_u 64 (snd v).

(** The two tables hold the same values. *)
Definition same (a b : table) : Prop := forall k, lookup k a = lookup k b.

(** The batch for these entries is shorter than 2^31 bytes, and there are
    offsets for it. *)
Definition fits (r : replica) (l : list kentry) : Prop :=
  zlen (renc (to_raw (kv_batch l))) < 2 ^ 31 - 4 /\ room r [to_raw (kv_batch l)].
Definition everything (t : table) : list kentry := Checkpoint :: map (fun e => updated (fst e) (snd e)) t.

(** What happens to the storage meanwhile: retention, a high watermark that
    moves forward. *)
Definition meanwhile (r : replica) (a : op) : Prop :=
  match a with CleanSize | CleanTtl _ => True | SetHw o => get_hw r <= o <= get_leo r | _ => False end.

(** After a change: the offset of its first entry, the table after it, and
    whether the change was a flush. *)
Definition snapshot := (Z * table * bool)%type.

(** The histories of a table: puts, deletes and flushes, each of which may fail
    (but a delete, see below), retention, and restarts after which the high
    watermark is the end of the log.  [T]: the changes, newest first. *)
Inductive kruns (c : config) : kv -> list snapshot -> Prop :=
  | k_start now : kruns c (mkKv [] (fresh c now)) []
  | k_put s T now only io k v s' ok : kruns c s T -> key_good k -> value_good v -> fits (kv_store s) [updated k v] ->
      kv_put c now only io s k v = (s', ok) ->
      kruns c s' (if ok then (get_leo (kv_store s), kv_cache s', false) :: T else T)
  | k_delete s T now only io k s' : kruns c s T -> key_good k -> fits (kv_store s) [deleted k] ->
      kv_delete c now only io s k = (s', true) ->
      kruns c s' ((get_leo (kv_store s), kv_cache s', false) :: T)
  | k_flush s T now only io order s' ok : kruns c s T -> Permutation order (kv_cache s) -> fits (kv_store s) (everything order) ->
      kv_flush c now only io s order = (s', ok) ->
      kruns c s' (if ok then (get_leo (kv_store s), kv_cache s', true) :: T else T)
  | k_store s T a r : kruns c s T -> op_ok c (kv_store s) a -> meanwhile (kv_store s) a -> exec c (kv_store s) a = Done r ->
      kruns c (mkKv (kv_cache s) r) T
  | k_restart s T now k r t : kruns c s T -> exec c (kv_store s) (Restart now k) = Done r -> get_hw r = get_leo r ->
      replay r = Ok t -> kruns c (mkKv t r) T.

(** The table as it was when the first entry beyond [o] was not there. *)
Definition as_of (o : Z) (T : list snapshot) : table :=
  match find (fun x => fst (fst x) <? o) T with Some x => snd (fst x) | None => [] end.
(** Nothing that is needed was removed by retention: nothing was removed, or a
    flush below the high watermark is still there. *)
Definition kept (r : replica) (T : list snapshot) : Prop :=
  get_log_start r = 0 \/ get_hw r = 0
  \/ exists o t, In (o, t, true) T /\ get_log_start r <= o < get_hw r.

(** The histories of the table of an SPU that is the only replica: the high
    watermark moves with every write, and a restart finds the one that was
    saved. *)
Inductive oruns (th : Z) (c : config) : offsets -> Prop :=
  | o_start now : oruns th c (mkOffsets (mkKv [] (fresh c now)) 0)
  | o_put s now io1 io2 order k v s' ok : oruns th c s -> key_good k -> value_good v ->
      (forall t, Permutation (order t) t) ->
      fits (kv_store (of_kv s)) [updated k v] ->
      (let s1 := fst (kv_put c now true io1 (of_kv s) k v) in fits (kv_store s1) (everything (order (kv_cache s1)))) ->
      of_put th c now true io1 io2 order s k v = (s', ok) -> oruns th c s'
  | o_delete s now io2 order k s' ok : oruns th c s -> key_good k ->
      (forall t, Permutation (order t) t) ->
      fits (kv_store (of_kv s)) [deleted k] ->
      (let s1 := fst (kv_delete c now true true (of_kv s) k) in fits (kv_store s1) (everything (order (kv_cache s1)))) ->
      snd (kv_delete c now true true (of_kv s) k) = true ->
      of_delete th c now true true io2 order s k = (s', ok) -> oruns th c s'
  | o_clean s a r : oruns th c s -> op_ok c (kv_store (of_kv s)) a -> a = CleanSize \/ (exists now, a = CleanTtl now) ->
      exec c (kv_store (of_kv s)) a = Done r ->
      oruns th c (mkOffsets (mkKv (kv_cache (of_kv s)) r) (of_changes s))
  | o_restart s now r s' : oruns th c s ->
      exec c (kv_store (of_kv s)) (Restart now (Value (get_hw (kv_store (of_kv s))))) = Done r ->
      of_open r = Ok s' -> oruns th c s'.
