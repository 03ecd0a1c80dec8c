(** What an application with managed offsets relies on, from run to run. *)
From Verif Require Import StorageSpec StreamSpec ConsumerSpec ManageModel.

(** The log of each partition; all that was ever stored in it *)
Definition logs := list (list (batch bytes)).
(** Every stream starts within what its reader may see. *)
Definition started_inside (p : params) (g : group) : Prop :=
  Forall (fun x => n_start (q_conn x) <= log_limit (p_iso p) (part_store x)) (g_parts g).
(** What can happen: the streams go on, the partitions change (retention removes
    committed records only), records are handed out, the application commits and
    flushes, the flusher ticks, messages to the server are answered, refused or
    lost, also those of earlier connections; the application crashes or ends and
    is started again; a consumer that retries gets a new connection. *)
Inductive gmoves (c : config) (p : params) (first : request) (retry : bool) : logs * group -> logs * group -> Prop :=
  | g_stream Hs g i x y : nth_error (g_parts g) i = Some x -> moves p (n_start (q_conn x)) (n_sys (q_conn x)) y ->
      gmoves c p first retry (Hs, g) (Hs, set_part i (mkPart (conn_move (q_conn x) y) (q_world x) (q_over x)) g)
  | g_storage Hs g i x H a r' new : nth_error (g_parts g) i = Some x -> nth_error Hs i = Some H ->
      op_ok c (part_store x) a -> live (part_store x) a -> exec c (part_store x) a = Done r' -> stored_by a (part_store x) r' new ->
      get_log_start r' <= get_hw r' ->
      gmoves c p first retry (Hs, g)
        (set_nth i (H ++ new) Hs,
         set_part i (mkPart (mkConn (n_start (q_conn x)) (set_store (n_sys (q_conn x)) r') (n_taken (q_conn x)) (n_avail (q_conn x))) (q_world x) (q_over x)) g)
  | g_read Hs g i due full fulls g' : g_join g = None -> hand first retry i due full fulls g = Some g' -> started_inside p g' ->
      gmoves c p first retry (Hs, g) (Hs, g')
  | g_lost Hs g i g' : lose i g = Some g' -> gmoves c p first retry (Hs, g) (Hs, g')
  | g_tick Hs g i x due full : nth_error (g_parts g) i = Some x -> gmoves c p first retry (Hs, g) (Hs, set_part i (set_world x (on_tick due full (q_world x))) g)
  | g_note Hs g i x o : nth_error (g_parts g) i = Some x -> gmoves c p first retry (Hs, g) (Hs, set_part i (set_world x (on_note o (q_world x))) g)
  | g_close Hs g i x : nth_error (g_parts g) i = Some x -> gmoves c p first retry (Hs, g) (Hs, set_part i (set_world x (on_close (q_world x))) g)
  | g_older Hs g i x j o : nth_error (g_parts g) i = Some x -> gmoves c p first retry (Hs, g) (Hs, set_part i (set_world x (on_old j o (q_world x))) g)
  | g_commit Hs g : g_join g = None -> gmoves c p first retry (Hs, g) (Hs, commit_all g)
  | g_flush Hs g : g_join g = None -> gmoves c p first retry (Hs, g) (Hs, start_flush g)
  | g_poll Hs g : gmoves c p first retry (Hs, g) (Hs, poll_flush g)
  | g_drop Hs g : gmoves c p first retry (Hs, g) (Hs, drop_flush g)
  | g_restart Hs g full g' : restart first full g = Some g' -> started_inside p g' -> gmoves c p first retry (Hs, g) (Hs, g')
  | g_retry Hs g full g' : retry = true -> g_join g = None -> retry_from first (g_next g) full g = Some g' -> started_inside p g' ->
      gmoves c p first retry (Hs, g) (Hs, g').
Inductive gruns (c : config) (p : params) (first : request) (retry : bool) (a : logs * group) : logs * group -> Prop :=
  | gruns_none : gruns c p first retry a a
  | gruns_step b d : gruns c p first retry a b -> gmoves c p first retry b d -> gruns c p first retry a d.

(** The partitions a consumer is started on, with what is stored for it: an offset
    of the log, if there is one. *)
Definition on_partitions (c : config) (Hs : logs) (l : list (replica * option Z)) : Prop :=
  Forall2 (fun H x => hist c (fst x) H /\ get_log_start (fst x) <= get_hw (fst x)
                      /\ match snd x with Some k => 0 <= k < get_hw (fst x) | None => True end) Hs l.
(** The start offset leads back to where the consumer was: it is an offset, or
    counted from the stored one without leaving records out, or nothing is stored
    and it is the beginning. *)
Definition resumable (first : request) (l : list (replica * option Z)) : Prop :=
  match first with
  | Absolute o => 0 <= o
  | FromBeginning o => o = 0
  | FromEnd o => 0 <= o < 2 ^ 32 /\ Forall (fun x => snd x <> None) l
  end.

(** What was given of partition [i], in all runs *)
Definition given_by (i : nat) (g : group) : list (Z * rec) := map snd (filter (fun x => Nat.eqb (fst x) i) (g_given g)).
(** Where partition [i] was started in the first run *)
Definition first_start (g0 : group) (i : nat) : Z := match nth_error (g_parts g0) i with Some x => n_start (q_conn x) | None => 0 end.
(** All of partition [i] up to offset [k] was given, or removed by retention. *)
Definition covered (H : list (batch bytes)) (r : replica) (given : list (Z * rec)) (s0 k : Z) : Prop :=
  forall z, In z (flat_map records_of H) -> s0 <= fst z <= k -> In z given \/ fst z < get_log_start r.

(** The offsets of the records handed out, newest first *)
Fixpoint offs (l : list event) : list Z := match l with [] => [] | Handed o :: t => o :: offs t | _ :: t => offs t end.
(** What was stored for partition [i] when the consumer was first started *)
Definition stored_first (l : list (replica * option Z)) (i : nat) : option Z := match nth_error l i with Some x => snd x | None => None end.
(** A consumer without SmartModule is started for the first time on the partitions
    [l], and everything that can happen happens; the response to a fetch holds at
    least a segment. *)
Definition managed (c : config) (p : params) (first : request) (retry : bool) (m : mode) (l : list (replica * option Z)) (Hs0 : logs) (g0 : group) (Hs : logs) (g : group) : Prop :=
  config_ok c /\ p_sm p = None /\ c_seg_max c <= p_max p /\ on_partitions c Hs0 l /\ first_run m first l = Some g0 /\ started_inside p g0
  /\ gruns c p first retry (Hs0, g0) (Hs, g).
(** [g'] comes after [g], and the application was not started again and did not
    reconnect in between. *)
Definition same_run (g g' : group) : Prop := exists k, g_log g' = k ++ g_log g /\ ~ In Began k.
