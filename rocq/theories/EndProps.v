(** C90: what producers send is what consumers see.  [P]: the producers of a
    partition, each with its configuration and its run.  [world c p s P A ph]:
    [A] is a list of batches the SPU has handled so far, in any interleaving of
    the producers, of retention, restarts (before the consumer starts), moves of
    the watermark and steps of the consumer that reads from offset [s].
    [log_of A]: the records stored, number [o] has offset [o].  Theorems only. *)
From Verif Require Import StorageSpec RecordSpec ProduceSpec ProducerSpec StreamSpec ProducerClaims StorageClaims EndModel EndSpec EndClaims.

(** Whatever fails: nothing is in the log that was not pushed and accepted. *)
Theorem C90_nothing_else : forall c p s P A ph i x, config_ok c -> Forall client_ok P -> world c p s P A ph ->
  In (i, x) (log_of A) -> exists a, nth_error P i = Some a /\ In x (pushed_by a).
Proof. exact (fun c p s P A ph i x CO CL => nothing_else c p s P CO CL A ph i x). Qed.
Print Assumptions C90_nothing_else.
(** Every request answered: the records of each producer are in the log in the
    order in which they were pushed, none twice, and without gap if all its
    batches were stored. *)
Theorem C90_each_in_order : forall c p s P A ph i a, config_ok c -> Forall client_ok P -> world c p s P A ph ->
  nth_error P i = Some a -> smooth (cl_events a) ->
  subsequence (part_of i (log_of A)) (pushed_by a)
  /\ (Forall (fun v => v_stored v = true) (from i A) -> prefix_of (part_of i (log_of A)) (pushed_by a)).
Proof. exact (fun c p s P A ph i a CO CL => each_in_order c p s P CO CL A ph i a). Qed.
Print Assumptions C90_each_in_order.
(** When the producer has nothing more to do and all its batches were stored,
    all it was given is in the log. *)
Theorem C90_each_complete : forall c p s P A ph i a T, config_ok c -> Forall client_ok P -> world c p s P A ph ->
  nth_error P i = Some a -> smooth (cl_events a) -> steady (cl_events a) ->
  conf_ok (cl_conf a) -> 0 <= T < 2 ^ 62 -> events_ok T (cl_events a) -> idle (final a) -> all_stored i a A ->
  part_of i (log_of A) = pushed_by a.
Proof. exact (fun c p s P A ph i a T CO CL => each_complete c p s P CL A ph i a T). Qed.
Print Assumptions C90_each_complete.
(** A batch answered without error is stored; a batch is not stored if it was
    answered with an error, except those two that are found while waiting for
    replicas. *)
Theorem C90_answers : forall c p s P A ph v, config_ok c -> Forall client_ok P -> world c p s P A ph -> In v A ->
  (p_code (v_answer v) = NoError -> v_stored v = true)
  /\ (v_stored v = true -> In (p_code (v_answer v)) [NoError; RequestTimedOut; NotLeaderForPartition]).
Proof. exact (fun c p s P A ph v CO CL => answer_means c p s P CO CL A ph v). Qed.
Print Assumptions C90_answers.
(** The consumer is given the log from [s] on, up to some offset within its
    limit, in order, with its offsets, once; and then at most one error, when
    retention removed what comes next. *)
Theorem C90_consumer : forall c p s P A y, config_ok c -> Forall client_ok P -> 0 <= s -> p_sm p = None -> world c p s P A (Open y) -> uncut c p A ->
  exists q e, consumed y = map Some (window s q (map snd (log_of A))) ++ e /\ s <= q <= log_limit (p_iso p) (y_store y)
    /\ (e = [] \/ e = [None] /\ y_pc y = Ended /\ q < get_log_start (y_store y)).
Proof. exact (fun c p s P A y CO CL S0 NS => consumer_sees c p s P CO CL S0 NS A y). Qed.
Print Assumptions C90_consumer.
(** A consumer at rest that may read to the end of the log has all of it. *)
Theorem C90_consumer_all : forall c p s P A y, config_ok c -> Forall client_ok P -> 0 <= s -> p_sm p = None -> world c p s P A (Open y) -> uncut c p A ->
  quiet p y -> log_limit (p_iso p) (y_store y) = get_leo (y_store y) ->
  consumed y = map Some (window s (zlen (log_of A)) (map snd (log_of A))).
Proof. exact (fun c p s P A y CO CL S0 NS => consumer_sees_all c p s P CO CL S0 NS A y). Qed.
Print Assumptions C90_consumer_all.
Theorem C90_comes_to_rest : forall c p s P A y, config_ok c -> Forall client_ok P -> 0 <= s -> p_sm p = None -> world c p s P A (Open y) -> uncut c p A ->
  Acc (fun y' y => moves p s y y') y /\ ((forall y', ~ moves p s y y') -> quiet p y \/ y_pc y = Ended).
Proof. exact (fun c p s P A y CO CL S0 NS => consumer_rests c p s P CO CL S0 NS A y). Qed.
Print Assumptions C90_comes_to_rest.
(** The offset a producer is told is the one under which its record is in the
    log; *)
Theorem C90_receipt : forall c p s P A ph i a n id off x o, config_ok c -> Forall client_ok P -> world c p s P A ph ->
  nth_error P i = Some a -> k_delivery (cl_conf a) = AtLeastOnce n -> heard i a A ->
  receipt (cl_events a) (returned a) id off x -> wait_for (final a) id off = Some (Some o) ->
  0 <= o /\ nth_error (log_of A) (Z.to_nat o) = Some (i, x).
Proof. exact (fun c p s P A ph i a n id off x o CO CL => receipt_true c p s P CO CL A ph i a n id off x o). Qed.
Print Assumptions C90_receipt.
(** and the one under which a consumer is given it. *)
Theorem C90_receipt_seen : forall c p s P A y i a n id off x o, config_ok c -> Forall client_ok P -> 0 <= s -> p_sm p = None -> world c p s P A (Open y) -> uncut c p A ->
  quiet p y -> log_limit (p_iso p) (y_store y) = get_leo (y_store y) ->
  nth_error P i = Some a -> k_delivery (cl_conf a) = AtLeastOnce n -> heard i a A ->
  receipt (cl_events a) (returned a) id off x -> wait_for (final a) id off = Some (Some o) -> s <= o ->
  In (Some (o, x)) (consumed y).
Proof. exact (fun c p s P A y i a n id off x o CO CL S0 NS => receipt_seen c p s P CO CL S0 NS A y i a n id off x o). Qed.
Print Assumptions C90_receipt_seen.

(** Two producers, a consumer that starts at offset 1 before the second one's
    batch is stored. *)
Example C90_ex : config_ok demo_c /\ Forall client_ok end_P /\ world demo_c end_p 1 end_P end_A (Open end_y).
Proof. exact (conj demo_c_ok (conj end_clients end_world)). Qed.
Example C90_ex_rest : quiet end_p end_y /\ uncut demo_c end_p end_A /\ log_limit (p_iso end_p) (y_store end_y) = get_leo (y_store end_y)
  /\ log_of end_A = [(0%nat, payload_of big); (0%nat, payload_of small); (1%nat, payload_of small)]
  /\ consumed end_y = [Some (1, payload_of small); Some (2, payload_of small)].
Proof. exact end_demo. Qed.
Example C90_ex_receipt : exists a, nth_error end_P 0 = Some a /\ k_delivery (cl_conf a) = AtLeastOnce 3 /\ smooth (cl_events a) /\ steady (cl_events a)
  /\ idle (final a) /\ all_stored 0 a end_A /\ heard 0 a end_A /\ receipt (cl_events a) (returned a) 0 1 (payload_of small) /\ wait_for (final a) 0 1 = Some (Some 1)
  /\ pushed_by a = [payload_of big; payload_of small].
Proof. exact end_heard. Qed.
(** Without [smooth]: the answer to a request is lost, the request is sent again,
    and the consumer is given the record twice. *)
Theorem C90_twice_refuted : exists c p a A y x, config_ok c /\ client_ok a /\ p_sm p = None /\ world c p 0 [a] A (Open y) /\ uncut c p A
  /\ pushed_by a = [x] /\ consumed y = [Some (0, x); Some (1, x)].
Proof. exact twice_refuted. Qed.
Print Assumptions C90_twice_refuted.
