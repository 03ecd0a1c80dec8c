(** What SmartModules are supposed to do with the records of a log. *)
From Verif Require Import LookbackModel StorageSpec StreamSpec LookbackSpec EngineModel.

(** * Chains, without batches *)

(** What becomes of one record in a module; [None]: the user's function fails.
    Offset and timestamp are those of the record. *)
Definition remake (v : seen_rec) (p : kv) : seen_rec := mkSeen (v_off v) (v_ts v) (fst p) (snd p).
Definition answer {A} (i : inst) (x : bytes * ures A) (f : A -> list seen_rec) : option (inst * list seen_rec) :=
  match snd x with UOk a => Some (mkInst (n_fun i) (fst x) (n_acc i), f a) | _ => None end.
Definition one (i : inst) (v : seen_rec) : option (inst * list seen_rec) :=
  match n_fun i with
  | UFilter f => answer i (f (n_mem i) v) (fun b : bool => if b then [v] else [])
  | UMap f => answer i (f (n_mem i) v) (fun p => [remake v p])
  | UFilterMap f => answer i (f (n_mem i) v) (fun o => match o with Some p => [remake v p] | None => [] end)
  | UArrayMap f => answer i (f (n_mem i) v) (map (remake v))
  | UAggregate f => match f (n_mem i) (n_acc i) v with
                    | (m, UOk a) => Some (mkInst (n_fun i) m a, [remake v (v_key v, a)])
                    | _ => None
                    end
  end.
(** A module that sees all records, one after the other; *)
Fixpoint over (i : inst) (l : list seen_rec) : option (inst * list seen_rec) :=
  match l with
  | [] => Some (i, [])
  | v :: t => match one i v with
              | None => None
              | Some (i1, a) => match over i1 t with None => None | Some (i2, b) => Some (i2, a ++ b) end
              end
  end.
(** and a chain: the first module sees all records, the second all that came out
    of the first, and so on. *)
Fixpoint whole (is : list inst) (l : list seen_rec) : option (list inst * list seen_rec) :=
  match is with
  | [] => Some ([], l)
  | i :: t => match over i l with
              | None => None
              | Some (i', out) => match whole t out with None => None | Some (t', out') => Some (i' :: t', out') end
              end
  end.

(** The user's function returns an error for the record (it does not trap). *)
Definition rejects (i : inst) (v : seen_rec) : Prop :=
  match n_fun i with
  | UFilter f => snd (f (n_mem i) v) = UErr
  | UMap f => snd (f (n_mem i) v) = UErr
  | UFilterMap f => snd (f (n_mem i) v) = UErr
  | UArrayMap f => snd (f (n_mem i) v) = UErr
  | UAggregate f => snd (f (n_mem i) (n_acc i) v) = UErr
  end.

Definition is_array (i : inst) : bool := match n_fun i with UArrayMap _ => true | _ => false end.
(** Only the last module may be an array-map. *)
Fixpoint arrays_last (is : list inst) : Prop :=
  match is with [] => True | i :: t => (t = [] \/ is_array i = false) /\ arrays_last t end.
Definition no_arrays (is : list inst) : Prop := Forall (fun i => is_array i = false) is.

(** * Logs *)
Definition as_seen (x : Z * Z * rec) : seen_rec := mkSeen (offset_of x) (time_of x) (r_key (snd x)) (r_val (snd x)).
Definition log_of (B : list (batch bytes)) : list seen_rec := map as_seen (flat_map stamped B).
(** The records from [o] up to the limit of the stream, whole batches. *)
Definition ahead (iso : isolation) (o : Z) (r : replica) (H : list (batch bytes)) : list (batch bytes) := batches_between o (log_limit iso r) H.

(** Key and value of what the application was given; [inr] for an error. *)
Definition pair_of (v : seen_rec) : kv := (v_key v, v_val v).
Definition told (g : given) : kv + smerr := match g with GRec c => inl (r_key (cr_rec c), r_val (cr_rec c)) | GErr e => inr e end.
Definition told_all (t : stream) : list (kv + smerr) := map told (t_out t).
(** The error for a record. *)
Definition blames (v : seen_rec) : smerr := mkErr (v_off v) (v_key v) (v_val v).

(** A bound on the size of records. *)
Definition key_len (k : option bytes) : Z := match k with Some b => zlen b | None => 0 end.
Fixpoint bulk (l : list seen_rec) : Z := match l with [] => 0 | v :: t => key_len (v_key v) + zlen (v_val v) + 100 + bulk t end.

(** * Streams *)
Definition open_stream (is : list inst) (s : Z) : stream := mkStream is s [].

(** All that is left to read is in the active segment, and no batch starts before
    the position and ends after it. *)
Definition in_reach (r : replica) (H : list (batch bytes)) (t : stream) : Prop :=
  m_base (r_active r) <= t_pos t /\ get_log_start r <= t_pos t /\ aligned (t_pos t) H.
(** The chain does not fail on what is left to read, and what comes out fits into
    one response. *)
Definition smooth (iso : isolation) (mx : Z) (r : replica) (H : list (batch bytes)) (t : stream) : Prop :=
  exists is outs, whole (t_chain t) (log_of (ahead iso (t_pos t) r H)) = Some (is, outs) /\ bulk outs <= mx.

(** A stream from [s] with the chain [is], while the log grows; every response
    meets the two conditions. *)
Inductive streamed (c : config) (iso : isolation) (mx s : Z) (is : list inst) (r0 : replica) (H0 : list (batch bytes))
  : replica -> list (batch bytes) -> stream -> Prop :=
  | sd_start : streamed c iso mx s is r0 H0 r0 H0 (open_stream is s)
  | sd_serve r H t t' : streamed c iso mx s is r0 H0 r H t -> in_reach r H t -> smooth iso mx r H t -> serve iso mx s r t = Some t' ->
      streamed c iso mx s is r0 H0 r H t'
  | sd_store r H t a r' new : streamed c iso mx s is r0 H0 r H t -> op_ok c r a -> live r a -> exec c r a = Done r' -> stored_by a r r' new ->
      streamed c iso mx s is r0 H0 r' (H ++ new) t.

(** The same records in other batches. *)
Definition same_records (B B' : list (batch bytes)) : Prop := log_of B = log_of B'.

(** * Writes *)

(** A batch as a producer sends it: offsets from 0 on, at least one record. *)
Definition sent (b : batch bytes) : Prop := b_base b = 0 /\ 0 < records_len b /\ honest b /\ numbered b.
(** Modules that turn each record into one record. *)
Definition one_each (is : list inst) : Prop := Forall (fun i => match n_fun i with UMap _ | UAggregate _ => True | _ => False end) is.
(** The chain after some writes, in order; it stops when a call fails. *)
Fixpoint writes (is : list inst) (l : list (list (batch bytes))) : list transformed :=
  match l with
  | [] => []
  | x :: t => transform is x :: match transform is x with Stored is' _ => writes is' t | Refused is' => writes is' t | Broken => [] end
  end.
(** The values of stored batches. *)
Definition stored_values (x : transformed) : option (list bytes) :=
  match x with
  | Stored _ l => Some (flat_map (fun b => match to_memory b with Ok m => map r_val (b_recs m) | Err _ => [] end) l)
  | _ => None
  end.
