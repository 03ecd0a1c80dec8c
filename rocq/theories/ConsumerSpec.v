(** What a consuming client should do. *)
From Verif Require Import ConsumerModel StorageSpec StreamSpec.

(** * Start offsets *)

(** The position a relative request names: counted from the record after the
    stored one, or from the ends of the log. *)
Definition named (q : request) (start stable : Z) (stored : option Z) : Z :=
  match q, stored with
  | Absolute o, _ => o
  | FromBeginning o, Some k => k + 1 + o
  | FromBeginning o, None => start + o
  | FromEnd o, Some k => k + 1 - o
  | FromEnd o, None => stable - o
  end.
Definition relative (q : request) : Prop := match q with Absolute _ => False | FromBeginning o | FromEnd o => in_u 32 o end.
(** [q'] asks for a later position than [q]. *)
Definition later (q q' : request) : Prop :=
  match q, q' with
  | Absolute a, Absolute b | FromBeginning a, FromBeginning b => a <= b
  | FromEnd a, FromEnd b => b <= a
  | _, _ => False
  end.
(** A log range, and a stored offset that leaves room for the additions. *)
Definition log_range (start stable : Z) : Prop := 0 <= start <= stable /\ stable < 2 ^ 63 - 2 ^ 32.
Definition stored_ok (stored : option Z) : Prop := match stored with Some k => -1 <= k < 2 ^ 63 - 2 ^ 33 | None => True end.

(** * Managed offsets *)

(** What the application, the network and the server can do.  While the
    application waits for a flush it cannot read, commit or flush ([&mut self]). *)
Inductive wmove : world -> world -> Prop :=
  | w_record w o due full : e_wait (w_cur w) = None -> 0 <= o -> wmove w (on_record o due full w)
  | w_tick w due full : wmove w (on_tick due full w)
  | w_commit w : e_wait (w_cur w) = None -> wmove w (on_commit w)
  | w_flush w : e_wait (w_cur w) = None -> wmove w (flush_begin w)
  | w_cancel w : wmove w (flush_cancel w)
  | w_note w x : wmove w (on_note x w)
  | w_close w : wmove w (on_close w)
  | w_reconnect w full : e_wait (w_cur w) = None -> wmove w (on_reconnect full w)
  | w_older w i x : wmove w (on_old i x w).
Inductive wruns : world -> world -> Prop :=
  | wruns_none w : wruns w w
  | wruns_step w w' w'' : wruns w w' -> wmove w' w'' -> wruns w w''.

(** The highest offset handed out (-1: none).  Events are listed newest first. *)
Fixpoint highest (l : list event) : Z :=
  match l with [] => -1 | Handed o :: t => Z.max o (highest t) | _ :: t => highest t end.
(** What the last commit committed: everything handed out until then.  In
    automatic mode a record is committed when it is handed out. *)
Fixpoint last_commit (m : mode) (l : list event) : Z :=
  match l with
  | [] => -1
  | Committed :: t => highest t
  | Handed o :: t => match m with Auto => highest (Handed o :: t) | _ => last_commit m t end
  | _ :: t => last_commit m t
  end.
Definition not_before (a b : option Z) : Prop :=
  match a, b with Some x, Some y => x <= y | Some _, None => False | None, _ => True end.

(** * Bounded reads *)

(** Server and network go on as for any stream; the client takes a response as
    long as something remains to be seen. *)
Inductive bmoves (p : params) (s : Z) : bounded -> bounded -> Prop :=
  | bm_send y n start : y_pc y = Sending start -> bmoves p s (mkBounded y n) (mkBounded (do_send p y start) n)
  | bm_ack y n : y_pc y = Waiting -> y_pub y <> y_ack_seen y -> bmoves p s (mkBounded y n) (mkBounded (on_ack y) n)
  | bm_end y n : y_pc y = Waiting -> log_limit (p_iso p) (y_store y) <> y_end_seen y -> bmoves p s (mkBounded y n) (mkBounded (on_end p y) n)
  | bm_update y n : y_acks y <> [] -> bmoves p s (mkBounded y n) (mkBounded (on_update y) n)
  | bm_take b : 0 < b_left b -> y_net (b_sys b) <> [] -> bmoves p s b (take_reply s b).
Inductive brun (c : config) (p : params) (s : Z) (r0 : replica) (H0 : list (batch bytes)) : list (batch bytes) -> bounded -> Prop :=
  | brun_start : brun c p s r0 H0 H0 (start_bounded r0 s)
  | brun_move H b b' : brun c p s r0 H0 H b -> bmoves p s b b' -> brun c p s r0 H0 H b'
  | brun_store H b a r' new : brun c p s r0 H0 H b -> op_ok c (y_store (b_sys b)) a -> live (y_store (b_sys b)) a ->
      exec c (y_store (b_sys b)) a = Done r' -> stored_by a (y_store (b_sys b)) r' new ->
      brun c p s r0 H0 (H ++ new) (mkBounded (set_store (b_sys b) r') (b_left b)).
(** The stream has ended for the application. *)
Definition finished (b : bounded) : Prop := b_left b <= 0.
(** [q] is where a batch ends (or the beginning of the log). *)
Definition boundary (q : Z) (H : list (batch bytes)) : Prop := q = 0 \/ exists b, In b H /\ batch_end b = q.

(** * Reconnection *)

(** What can happen to a consumer of several partitions: a connection goes on, a
    partition's storage changes (retention removes committed records only), the
    next item of a partition is taken, the connection fails.  [Hs]: what was
    ever stored in each partition. *)
Inductive rmoves (c : config) (p : params) (first : request) : list (list (batch bytes)) * reader -> list (list (batch bytes)) * reader -> Prop :=
  | r_conn Hs d i n y : nth_error (d_conns d) i = Some n -> moves p (n_start n) (n_sys n) y ->
      rmoves c p first (Hs, d) (Hs, mkReader (set_nth i (conn_move n y) (d_conns d)) (d_next d) (d_given d))
  | r_store Hs d i n H a r' new : nth_error (d_conns d) i = Some n -> nth_error Hs i = Some H ->
      op_ok c (y_store (n_sys n)) a -> live (y_store (n_sys n)) a -> exec c (y_store (n_sys n)) a = Done r' -> stored_by a (y_store (n_sys n)) r' new ->
      get_log_start r' <= get_hw r' ->
      rmoves c p first (Hs, d)
        (set_nth i (H ++ new) Hs, mkReader (set_nth i (mkConn (n_start n) (set_store (n_sys n) r') (n_taken n) (n_avail n)) (d_conns d)) (d_next d) (d_given d))
  | r_take Hs d i d' : take first i d = Some d' -> rmoves c p first (Hs, d) (Hs, d')
  | r_fail Hs d d' : fail first d = Some d' -> rmoves c p first (Hs, d) (Hs, d').
Inductive rrun (c : config) (p : params) (first : request) (x : list (list (batch bytes)) * reader) : list (list (batch bytes)) * reader -> Prop :=
  | rrun_start : rrun c p first x x
  | rrun_move y z : rrun c p first x y -> rmoves c p first y z -> rrun c p first x z.
(** A consumer connects for the first time. *)
Definition opened (first : request) (rs : list replica) (d : reader) : Prop :=
  exists l, open_all first rs = Some l /\ d = mkReader l None [].

(** What was given of partition [i]. *)
Definition given_of (i : nat) (d : reader) : list (Z * rec) := map snd (filter (fun x => Nat.eqb (fst x) i) (d_given d)).
