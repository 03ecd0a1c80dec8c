(** C42 to C45: where a consumer starts, what is stored for it, what a bounded read
    returns, where it resumes. *)
From Coq Require Import Sorting.Sorted.
From Verif Require Import StorageSpec StreamModel ConsumerModel ConsumerSpec ConsumerProofs ConsumerClaims StreamClaims StreamSpec.

(** C42.  [start] and [stable]: log start and last committed offset. *)
Theorem C42_inside : forall q start stable stored, log_range start stable -> stored_ok stored -> relative q ->
  exists x, resolve q start stable (consumer_position stored) = Ok x /\ start <= x <= stable
    /\ (start <= named q start stable stored <= stable -> x = named q start stable stored)
    /\ (named q start stable stored < start -> x = start) /\ (stable < named q start stable stored -> x = stable).
Proof. exact resolve_inside. Qed.
Print Assumptions C42_inside.
Theorem C42_monotone : forall q q' start stable stored x x', log_range start stable -> stored_ok stored -> relative q -> relative q' -> later q q' ->
  resolve q start stable (consumer_position stored) = Ok x -> resolve q' start stable (consumer_position stored) = Ok x' -> x <= x'.
Proof. exact resolve_monotone. Qed.
Print Assumptions C42_monotone.
Example C42_ex : log_range 10 100 /\ stored_ok (Some 50) /\ relative (FromEnd 7) /\ relative (FromBeginning 95) /\ later (FromEnd 7) (FromEnd 3)
  /\ resolve (FromBeginning 5) 10 100 (consumer_position None) = Ok 15 /\ resolve (FromEnd 7) 10 100 (consumer_position None) = Ok 93
  /\ resolve (FromEnd 7) 10 100 (consumer_position (Some 50)) = Ok 44 /\ resolve (FromBeginning 95) 10 100 (consumer_position None) = Ok 100
  /\ resolve (FromEnd 700) 10 100 (consumer_position None) = Ok 10.
Proof. repeat split; vm_compute; congruence. Qed.
(** An absolute offset is taken as it is. *)
Theorem C42_absolute : forall q o start stable stored, absolute o = Some q -> resolve q start stable (consumer_position stored) = Ok o.
Proof. exact resolve_absolute. Qed.
Print Assumptions C42_absolute.
(** Retention does not look at the watermark: a log can start after its last
    committed record, and then asking for its beginning ends in a panic. *)
Theorem C42_empty_range_refuted : exists c r H, config_ok c /\ hist c r H /\ resolve (FromBeginning 0) (get_log_start r) (get_hw r) None = Err Panic.
Proof. exact resolve_refuted. Qed.
Print Assumptions C42_empty_range_refuted.

(** C43.  What is stored for a consumer is what was there before or the offset of a
    record that was handed out and committed. *)
Theorem C43_not_beyond : forall m v0 w, wruns (world0 m v0) w ->
  w_stored w = v0 \/ exists o, w_stored w = Some o /\ In (Handed o) (w_log w) /\ o <= last_commit m (w_log w).
Proof. exact never_beyond. Qed.
Print Assumptions C43_not_beyond.
Theorem C43_unmanaged : forall v0 w, wruns (world0 NoManagement v0) w -> w_stored w = v0.
Proof. exact unmanaged. Qed.
Print Assumptions C43_unmanaged.
(** As long as the consumer does not reconnect it never decreases ... *)
Theorem C43_never_decreases : forall m v0 w w', wruns (world0 m v0) w -> wmove w w' -> ~ In Reconnected (w_log w') ->
  (forall k o, v0 = Some k -> In (Handed o) (w_log w') -> k <= o) -> not_before (w_stored w) (w_stored w').
Proof. exact never_back. Qed.
Print Assumptions C43_never_decreases.
(** ... and after a successful flush it is the last commit, if there was one,
    unless this offset was sent by an automatic flush. *)
Theorem C43_flush : forall m v0 w t, wruns (world0 m v0) w -> w_log w = FlushOk :: t -> ~ In Reconnected t ->
  m <> NoManagement /\ (last_commit m t = -1 \/ w_stored w = Some (last_commit m t) \/ m = Auto /\ In (AutoSent (last_commit m t)) t).
Proof. exact flush_stores. Qed.
Print Assumptions C43_flush.
Example C43_ex : exists w t, wruns (world0 Manual (Some 3)) w /\ w_log w = FlushOk :: t /\ ~ In Reconnected t /\ last_commit Manual t = 6 /\ highest t = 8 /\ w_stored w = Some 6.
Proof. exact managed_demo. Qed.
(** An automatic flush is not waited for.  If the server refuses it, a later flush
    succeeds and nothing is ever stored; *)
Theorem C43_refused_refuted : exists w t, wruns (world0 Auto None) w /\ w_log w = FlushOk :: t /\ ~ In Reconnected t /\ last_commit Auto t = 5
  /\ w_stored w = None /\ e_queue (w_cur w) = [] /\ w_old w = [].
Proof. exact refused_flush. Qed.
Print Assumptions C43_refused_refuted.
(** a flush can succeed before the automatic one has reached the server. *)
Theorem C43_early_refuted : exists w t w', wruns (world0 Auto None) w /\ w_log w = FlushOk :: t /\ ~ In Reconnected t /\ last_commit Auto t = 5
  /\ w_stored w = None /\ w_log w' = w_log w /\ wmove w w' /\ w_stored w' = Some 5.
Proof. exact early_flush. Qed.
Print Assumptions C43_early_refuted.
(** A new connection forgets what was committed: a flush after it succeeds and
    stores nothing. *)
Theorem C43_reconnect_refuted : exists w t, wruns (world0 Manual None) w /\ w_log w = FlushOk :: t /\ last_commit Manual t = 5
  /\ w_stored w = None /\ e_queue (w_cur w) = [] /\ (forall q, In q (w_old w) -> q = []).
Proof. exact reconnect_flush. Qed.
Print Assumptions C43_reconnect_refuted.
(** What an earlier connection still had to send is stored over what the current
    one has stored. *)
Theorem C43_decrease_refuted : exists w w', wruns (world0 Auto None) w /\ wmove w w' /\ w_stored w = Some 7 /\ w_stored w' = Some 5.
Proof. exact old_message. Qed.
Print Assumptions C43_decrease_refuted.

(** C44.  When a read up to the end has ended, the application was given every
    record from the requested offset to (at least) what was committed when it
    started: without SmartModule, and started where a batch starts. *)
Theorem C44_everything : forall c p s, config_ok c -> 0 <= s -> p_sm p = None -> forall r0 H0, hist c r0 H0 -> s <= log_limit (p_iso p) r0 ->
  forall H b, brun c p s r0 H0 H b -> one_response c p s (y_store (b_sys b)) H -> aligned s H -> finished b ->
  exists q e, seen (b_sys b) = map Some (between s q H) ++ e /\ get_hw r0 <= q /\ s <= q <= log_limit (p_iso p) (y_store (b_sys b))
    /\ (e = [] \/ e = [None] /\ y_pc (b_sys b) = Ended /\ q < get_log_start (y_store (b_sys b))).
Proof. exact bounded_safe. Qed.
Print Assumptions C44_everything.
(** It ends: there are no infinite runs, and one that has stopped has finished or
    was ended by the server with an error. *)
Theorem C44_ends : forall c p s, config_ok c -> 0 <= s -> p_sm p = None -> forall r0 H0, hist c r0 H0 -> s <= log_limit (p_iso p) r0 ->
  forall H b, brun c p s r0 H0 H b -> one_response c p s (y_store (b_sys b)) H -> aligned s H -> boundary (get_hw r0) H0 ->
  Acc (fun b' b => bmoves p s b b') b /\ ((forall b', ~ bmoves p s b b') -> finished b \/ y_pc (b_sys b) = Ended).
Proof. exact bounded_ends. Qed.
Print Assumptions C44_ends.
Example C44_ex : config_ok st_c /\ hist st_c st_r st_H /\ aligned 2 st_H /\ boundary (get_hw st_r) st_H
  /\ brun st_c (plain 160) 2 st_r st_H st_H (bounded_rest (plain 160) 2 st_r) /\ one_response st_c (plain 160) 2 st_r st_H
  /\ finished (bounded_rest (plain 160) 2 st_r)
  /\ map val_of (seen (b_sys (bounded_rest (plain 160) 2 st_r))) = [Some (2, [3]); Some (3, [4]); Some (4, [5])].
Proof. exact bounded_demo. Qed.
(** Started inside a batch it can end before the last record; *)
Theorem C44_inside_refuted : exists c p s r H b x, config_ok c /\ p_sm p = None /\ hist c r H /\ 0 <= s <= get_hw r /\ one_response c p s r H
  /\ boundary (get_hw r) H /\ brun c p s r H H b /\ finished b
  /\ In x (between s (get_hw r) H) /\ ~ In (Some x) (seen (b_sys b)).
Proof. exact bounded_inside. Qed.
Print Assumptions C44_inside_refuted.
(** with a SmartModule that leaves records out it never ends; *)
Theorem C44_filter_refuted : exists c p sm s r H b, config_ok c /\ p_sm p = Some sm /\ hist c r H /\ 0 <= s <= get_hw r /\ smart_log sm (p_max p) s r H /\ boundary (get_hw r) H
  /\ brun c p s r H H b /\ (forall b', ~ bmoves p s b b') /\ ~ finished b /\ y_pc (b_sys b) <> Ended.
Proof. exact bounded_waits. Qed.
Print Assumptions C44_filter_refuted.
(** with one that makes several records of one it can end too early. *)
Theorem C44_expand_refuted : exists c p sm s r H b bt, config_ok c /\ p_sm p = Some sm /\ hist c r H /\ 0 <= s <= get_hw r /\ smart_log sm (p_max p) s r H /\ boundary (get_hw r) H
  /\ brun c p s r H H b /\ finished b /\ In bt H /\ s <= b_base bt /\ batch_end bt <= get_hw r
  /\ forall x, In x (passed sm bt) -> ~ In (Some (content_of x)) (seen_content (b_sys b)).
Proof. exact bounded_short. Qed.
Print Assumptions C44_expand_refuted.

(** C45.  A consumer of one partition that starts at an offset and reconnects any
    number of times: the offsets it is given increase strictly, each comes with
    the record stored there, none is left out unless retention removed it, and
    once everything that was sent is taken none is missing. *)
Theorem C45_one_partition : forall c p s0, config_ok c -> 0 <= s0 -> p_sm p = None -> c_seg_max c <= p_max p ->
  forall r H0 d0 Hs d, hist c r H0 -> s0 <= log_limit (p_iso p) r -> get_log_start r <= get_hw r -> opened (Absolute s0) [r] d0 ->
  rrun c p (Absolute s0) ([H0], d0) (Hs, d) ->
  exists H n, Hs = [H] /\ d_conns d = [n]
    /\ StronglySorted (fun x y => fst x < fst y) (given_of 0 d)
    /\ (forall x, In x (given_of 0 d) -> In x (flat_map records_of H) /\ s0 <= fst x)
    /\ (forall x y, In y (given_of 0 d) -> In x (flat_map records_of H) -> s0 <= fst x < fst y -> In x (given_of 0 d) \/ fst x < get_log_start (y_store (n_sys n)))
    /\ (quiet p (n_sys n) -> n_taken n = length (y_out (n_sys n)) ->
          forall b x, In b H -> batch_end b <= log_limit (p_iso p) (y_store (n_sys n)) -> In x (records_of b) -> s0 <= fst x ->
          In x (given_of 0 d) \/ fst x < get_log_start (y_store (n_sys n))).
Proof. exact one_partition. Qed.
Print Assumptions C45_one_partition.
Example C45_ex : exists d0 d, config_ok st_c /\ hist st_c st_r st_H /\ get_log_start st_r <= get_hw st_r /\ opened (Absolute 0) [st_r] d0
  /\ rrun st_c (plain 160) (Absolute 0) ([st_H], d0) ([st_H], d) /\ rested (plain 160) d
  /\ map (fun x => (fst x, r_val (snd x))) (given_of 0 d) = [(0, [1]); (1, [2]); (2, [3]); (3, [4]); (4, [5])].
Proof. exact one_demo. Qed.
(** Several partitions share one next offset: after reconnecting, records of one
    partition are left out ... *)
Theorem C45_lost_refuted : exists c p r H d0 d x, config_ok c /\ p_sm p = None /\ c_seg_max c <= p_max p /\ hist c r H /\ get_log_start r <= get_hw r /\ opened (Absolute 0) [r; r] d0
  /\ rrun c p (Absolute 0) ([H; H], d0) ([H; H], d) /\ rested p d /\ d_conns d <> [] /\ Forall (fun n => get_log_start (y_store (n_sys n)) = 0) (d_conns d)
  /\ In x (between 0 (get_hw r) H) /\ ~ In x (given_of 1 d).
Proof. exact two_lost. Qed.
Print Assumptions C45_lost_refuted.
(** ... or given again. *)
Theorem C45_repeat_refuted : exists c p r H d0 d, config_ok c /\ p_sm p = None /\ c_seg_max c <= p_max p /\ hist c r H /\ get_log_start r <= get_hw r /\ opened (Absolute 0) [r; r] d0
  /\ rrun c p (Absolute 0) ([H; H], d0) ([H; H], d) /\ map fst (given_of 0 d) = [0; 1; 2; 3; 4; 1].
Proof. exact two_again. Qed.
Print Assumptions C45_repeat_refuted.
(** A consumer that starts at the end and reconnects before its first record
    starts at the new end. *)
Theorem C45_end_refuted : exists c p r H d0 H1 d1 H2 d2 x, config_ok c /\ p_sm p = None /\ c_seg_max c <= p_max p /\ hist c r H /\ get_log_start r <= get_hw r /\ opened (FromEnd 0) [r] d0
  /\ rrun c p (FromEnd 0) ([H], d0) ([H1], d1) /\ rrun c p (FromEnd 0) ([H1], d1) ([H2], d2) /\ rested p d2 /\ d_conns d2 <> []
  /\ (forall n, In n (d_conns d1) -> n_start n <= fst x) /\ In x (between 0 (get_hw r + 1) H1) /\ ~ In x (given_of 0 d2)
  /\ forall n, In n (d_conns d2) -> get_log_start (y_store (n_sys n)) = 0.
Proof. exact end_lost. Qed.
Print Assumptions C45_end_refuted.
(** With a SmartModule the offsets handed out are not those of the log, and it
    resumes at the wrong place. *)
Theorem C45_smart_refuted : exists c p sm r H d0 d, config_ok c /\ p_sm p = Some sm /\ smart_log sm (p_max p) 0 r H /\ hist c r H /\ get_log_start r <= get_hw r /\ opened (Absolute 0) [r] d0
  /\ rrun c p (Absolute 0) ([H], d0) ([H], d) /\ map (fun x => r_val (snd x)) (flat_map records_of H) = [[1]; [2]; [3]; [4]; [5]]
  /\ map (fun x => (fst x, r_val (snd x))) (given_of 0 d) = [(0, [1]); (1, [3]); (2, [3])].
Proof. exact smart_again. Qed.
Print Assumptions C45_smart_refuted.
