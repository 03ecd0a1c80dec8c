(** What a consumer stream is supposed to deliver. *)
From Verif Require Import StreamModel StorageSpec RecordSpec.

(** * Logs *)

(** The payload of a stored batch decodes, to as many records as its header
    announces. *)
Definition honest (b : batch bytes) : Prop :=
  exists m, to_memory b = Ok m /\ zlen (b_recs m) = records_len b.

(** The records of a batch with their offsets. *)
Fixpoint number_records (o : Z) (l : list rec) : list (Z * rec) :=
  match l with [] => [] | r :: t => (o, r) :: number_records (o + 1) t end.
Definition records_of (b : batch bytes) : list (Z * rec) :=
  match to_memory b with Ok m => number_records (b_base b) (b_recs m) | Err _ => [] end.

(** The records of a log at offsets from [s] up to [q] (exclusive). *)
Definition between (s q : Z) (H : list (batch bytes)) : list (Z * rec) :=
  filter (fun x => (s <=? fst x) && (fst x <? q)) (flat_map records_of H).

(** [new] is what the operation [a] stored. *)
Definition stored_by (a : op) (r r' : replica) (new : list (batch bytes)) : Prop :=
  chain (get_leo r) new (get_leo r') /\
  match a with Write _ l _ => exists n, new = number (get_leo r) (firstn n l) | _ => new = [] end.

(** What may happen to the storage while streams are served: writes, a watermark
    that moves forward within the log, retention. *)
Definition live (r : replica) (a : op) : Prop :=
  match a with
  | Write _ l _ => Forall honest l
  | SetHw o => get_hw r <= o <= get_leo r
  | CleanSize | CleanTtl _ => True
  | Restart _ _ | Crash _ _ _ _ => False
  end.
(** and before *)
Definition earlier (r : replica) (a : op) : Prop :=
  match a with Restart _ _ => True | _ => live r a end.

(** A replica, and everything that was ever stored in it. *)
Inductive hist (c : config) : replica -> list (batch bytes) -> Prop :=
  | hist_fresh now : hist c (fresh c now) []
  | hist_step r H a r' new : hist c r H -> op_ok c r a -> earlier r a -> exec c r a = Done r' -> stored_by a r r' new ->
      hist c r' (H ++ new).

(** * Streams *)

(** What the server, the client and the network can do. *)
Inductive moves (p : params) (s : Z) : sys -> sys -> Prop :=
  | m_send y start : y_pc y = Sending start -> moves p s y (do_send p y start)
  | m_ack y : y_pc y = Waiting -> y_pub y <> y_ack_seen y -> moves p s y (on_ack y)
  | m_end y : y_pc y = Waiting -> log_limit (p_iso p) (y_store y) <> y_end_seen y -> moves p s y (on_end p y)
  | m_reply y : y_net y <> [] -> moves p s y (on_reply s y)
  | m_update y : y_acks y <> [] -> moves p s y (on_update y).

(** All runs of a stream from offset [s] of [r0]; [H]: everything that was ever
    stored. *)
Inductive run (c : config) (p : params) (s : Z) (r0 : replica) (H0 : list (batch bytes)) : list (batch bytes) -> sys -> Prop :=
  | run_start : run c p s r0 H0 H0 (start_stream r0 s)
  | run_move H y y' : run c p s r0 H0 H y -> moves p s y y' -> run c p s r0 H0 H y'
  | run_store H y a r' new : run c p s r0 H0 H y -> op_ok c (y_store y) a -> live (y_store y) a ->
      exec c (y_store y) a = Done r' -> stored_by a (y_store y) r' new -> run c p s r0 H0 (H ++ new) (set_store y r').

(** Nothing is left to do until the log grows. *)
Definition quiet (p : params) (y : sys) : Prop :=
  y_pc y = Waiting /\ y_pub y = y_ack_seen y /\ log_limit (p_iso p) (y_store y) = y_end_seen y /\ y_net y = [] /\ y_acks y = [].

(** What the application was given: offset and record, [None] for an error. *)
Definition seen (y : sys) : list (option (Z * rec)) :=
  map (fun i => match i with Rec c => Some (cr_offset c, cr_rec c) | ErrItem => None end) (y_out y).
(** and without offsets *)
Record content := mkContent { n_attr : Z; n_ts : Z; n_key : option bytes; n_val : bytes; n_headers : Z }.
Definition content_of (r : rec) : content := mkContent (r_attr r) (r_ts r) (r_key r) (r_val r) (r_headers r).
Definition seen_content (y : sys) : list (option content) :=
  map (fun i => match i with Rec c => Some (content_of (cr_rec c)) | ErrItem => None end) (y_out y).

Definition batch_end (b : batch bytes) : Z := b_base b + records_len b.
(** The batches of a log that end after [s] and not after [q]. *)
Definition batches_between (s q : Z) (H : list (batch bytes)) : list (batch bytes) :=
  filter (fun b => (s <? batch_end b) && (batch_end b <=? q)) H.
(** What a SmartModule lets through of a batch. *)
Definition passed (sm : smart) (b : batch bytes) : list rec :=
  match to_memory b with Ok m => sm (b_base b) (b_recs m) | Err _ => [] end.

(** * Domains *)

(** Slices of the log are not cut short: the limit of a response is at least the
    size of a segment, or everything from [s] on fits. *)
Definition one_response (c : config) (p : params) (s : Z) (r : replica) (H : list (batch bytes)) : Prop :=
  c_seg_max c <= p_max p \/ zlen (flat_map renc (batches_between s (get_leo r) H)) <= p_max p.

(** For SmartModules: no batch starts before [s] and ends after it; *)
Definition aligned (s : Z) (H : list (batch bytes)) : Prop := forall b, In b H -> s < batch_end b -> s <= b_base b.
(** what passes of one batch fits in a response; *)
Definition fits (sm : smart) (mx s : Z) (H : list (batch bytes)) : Prop := forall b, In b H -> s < batch_end b -> c_size memory_codec (passed sm b) <= mx.
(** everything from [s] on is in the active segment, or something of every batch
    passes. *)
Definition sure (sm : smart) (r : replica) (s : Z) (H : list (batch bytes)) : Prop :=
  m_base (r_active r) <= s \/ forall b, In b H -> s < batch_end b -> passed sm b <> [].
Definition smart_log (sm : smart) (mx s : Z) (r : replica) (H : list (batch bytes)) : Prop :=
  aligned s H /\ fits sm mx s H /\ sure sm r s H.
(** As many records leave the SmartModule as enter it. *)
Definition one_to_one (sm : smart) (s : Z) (H : list (batch bytes)) : Prop := forall b, In b H -> s < batch_end b -> zlen (passed sm b) = records_len b.

(** What the application was given, with offsets; and what it should be given:
    each record that left the SmartModule with the offset of the record that
    entered it. *)
Definition snapshot (i : item) : option (Z * content) := match i with Rec c => Some (cr_offset c, content_of (cr_rec c)) | ErrItem => None end.
Fixpoint number_contents (o : Z) (l : list content) : list (Z * content) :=
  match l with [] => [] | x :: t => (o, x) :: number_contents (o + 1) t end.
Definition numbered_passed (sm : smart) (B : list (batch bytes)) : list (Z * content) :=
  flat_map (fun b => number_contents (b_base b) (map content_of (passed sm b))) B.

(** Offset and value of what the application was given. *)
Definition val_of (i : option (Z * rec)) : option (Z * bytes) := match i with Some (o, r) => Some (o, r_val r) | None => None end.
(** A stream at rest has delivered nothing, although something of the committed
    batch [b] passes the SmartModule. *)
Definition lost (c : config) (p : params) (sm : smart) (s : Z) (r : replica) (H : list (batch bytes)) (y : sys) (b : batch bytes) : Prop :=
  config_ok c /\ p_sm p = Some sm /\ hist c r H /\ 0 <= s <= log_limit (p_iso p) r /\ run c p s r H H y /\ quiet p y
  /\ In b H /\ s < batch_end b <= log_limit (p_iso p) (y_store y) /\ passed sm b <> [] /\ y_out y = [].
