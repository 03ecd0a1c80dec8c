(** C34, C35, C36: what a consumer stream delivers. *)
From Verif Require Import StorageSpec StreamModel StreamSpec StreamClaims.

(** C34.  Streams without SmartModule.  [H] is everything ever stored in the
    partition; [y] is any state the stream reaches, whatever the order of writes,
    watermark updates, retention, responses and acknowledgements.  The domain is
    that slices are not cut short by the response limit ([one_response]) and that
    the start is not beyond the limit.

    The application has been given exactly the records from [s] up to some offset
    [q] within the limit, in order, with their offsets, none twice; and then at
    most one error, which ends the stream, when retention has removed [q]. *)
Theorem C34_in_order_once : forall c p s, config_ok c -> 0 <= s -> p_sm p = None ->
  forall r0 H0 H y, hist c r0 H0 -> s <= log_limit (p_iso p) r0 -> run c p s r0 H0 H y -> one_response c p s (y_store y) H ->
  exists q e, seen y = map Some (between s q H) ++ e /\ s <= q <= log_limit (p_iso p) (y_store y)
    /\ (e = [] \/ e = [None] /\ y_pc y = Ended /\ q < get_log_start (y_store y)).
Proof. exact plain_safe. Qed.
Print Assumptions C34_in_order_once.

(** C34.  A stream at rest has delivered every batch that lies within the limit
    (the watermark or the log end). *)
Theorem C34_everything : forall c p s, config_ok c -> 0 <= s -> p_sm p = None ->
  forall r0 H0 H y, hist c r0 H0 -> s <= log_limit (p_iso p) r0 -> run c p s r0 H0 H y -> one_response c p s (y_store y) H -> quiet p y ->
  exists q, seen y = map Some (between s q H) /\ s <= q <= log_limit (p_iso p) (y_store y)
    /\ (forall b, In b H -> batch_end b <= log_limit (p_iso p) (y_store y) -> batch_end b <= q).
Proof. exact plain_complete. Qed.
Print Assumptions C34_everything.

(** C34.  And a stream comes to rest: without new writes, no sequence of steps of
    server, client and network goes on for ever, and it only stops when the stream
    is at rest or has ended. *)
Theorem C34_comes_to_rest : forall c p s, config_ok c -> 0 <= s -> p_sm p = None ->
  forall r0 H0 H y, hist c r0 H0 -> s <= log_limit (p_iso p) r0 -> run c p s r0 H0 H y -> one_response c p s (y_store y) H ->
  Acc (fun y' y => moves p s y y') y /\ ((forall y', ~ moves p s y y') -> quiet p y \/ y_pc y = Ended).
Proof. exact plain_ends. Qed.
Print Assumptions C34_comes_to_rest.

Example C34_demo : config_ok st_c /\ hist st_c st_r st_H
  /\ run st_c (plain 160) 1 st_r st_H st_H (at_rest (plain 160) 1 st_r) /\ one_response st_c (plain 160) 1 st_r st_H
  /\ quiet (plain 160) (at_rest (plain 160) 1 st_r)
  /\ map val_of (seen (at_rest (plain 160) 1 st_r)) = [Some (1, [2]); Some (2, [3]); Some (3, [4]); Some (4, [5])].
Proof. exact (conj st_c_ok (conj st_hist plain_demo)). Qed.

(** C34.  Without [one_response]: records are lost where the limit cuts a slice. *)
Theorem C34_cut_refuted : exists c p s r H y b, config_ok c /\ p_sm p = None /\ hist c r H /\ 0 <= s <= log_limit (p_iso p) r
  /\ run c p s r H H y /\ quiet p y /\ In b H /\ s <= b_base b /\ batch_end b <= log_limit (p_iso p) (y_store y)
  /\ exists x, In x (records_of b) /\ ~ In (Some x) (seen y).
Proof. exact cut_refuted. Qed.
Print Assumptions C34_cut_refuted.
(** or the stream comes to rest without having delivered anything. *)
Theorem C34_tiny_limit_refuted : exists c p s r H y, config_ok c /\ p_sm p = None /\ hist c r H /\ 0 <= s < log_limit (p_iso p) r
  /\ run c p s r H H y /\ quiet p y /\ y_out y = [].
Proof. exact stuck_refuted. Qed.
Print Assumptions C34_tiny_limit_refuted.
(** C34.  A committed read that starts above the watermark delivers records that
    are not committed. *)
Theorem C34_uncommitted_refuted : exists c p s r H y x, config_ok c /\ p_sm p = None /\ p_iso p = ReadCommitted /\ hist c r H /\ get_hw r < s
  /\ run c p s r H H y /\ get_hw (y_store y) <= fst x /\ In (Some x) (seen y).
Proof. exact uncommitted_refuted. Qed.
Print Assumptions C34_uncommitted_refuted.

(** C35.  Streams with a SmartModule, on logs where [smart_log] holds: the
    application is given what passes of the batches from [s] on, in order, each
    record once; *)
Theorem C35_in_order_once : forall c p s sm, config_ok c -> 0 <= s -> p_sm p = Some sm ->
  forall r0 H0 H y, hist c r0 H0 -> s <= log_limit (p_iso p) r0 -> run c p s r0 H0 H y -> smart_log sm (p_max p) s (y_store y) H ->
  exists q e, seen_content y = map Some (map content_of (flat_map (passed sm) (batches_between s q H))) ++ e /\ s <= q <= log_limit (p_iso p) (y_store y)
    /\ (e = [] \/ e = [None] /\ y_pc y = Ended /\ q < get_log_start (y_store y)).
Proof. exact smart_safe. Qed.
Print Assumptions C35_in_order_once.
(** and everything that passes, when the stream is at rest, whatever the limit; *)
Theorem C35_everything : forall c p s sm, config_ok c -> 0 <= s -> p_sm p = Some sm ->
  forall r0 H0 H y, hist c r0 H0 -> s <= log_limit (p_iso p) r0 -> run c p s r0 H0 H y -> smart_log sm (p_max p) s (y_store y) H -> quiet p y ->
  seen_content y = map Some (map content_of (flat_map (passed sm) (batches_between s (log_limit (p_iso p) (y_store y)) H))).
Proof. exact smart_complete. Qed.
Print Assumptions C35_everything.
(** and it comes to rest. *)
Theorem C35_comes_to_rest : forall c p s sm, config_ok c -> 0 <= s -> p_sm p = Some sm ->
  forall r0 H0 H y, hist c r0 H0 -> s <= log_limit (p_iso p) r0 -> run c p s r0 H0 H y -> smart_log sm (p_max p) s (y_store y) H ->
  Acc (fun y' y => moves p s y y') y /\ ((forall y', ~ moves p s y y') -> quiet p y \/ y_pc y = Ended).
Proof. exact smart_ends. Qed.
Print Assumptions C35_comes_to_rest.

Example C35_demo : config_ok st_c /\ hist st_c st_r st_H
  /\ run st_c (filtered 100 odd) 0 st_r st_H st_H (at_rest (filtered 100 odd) 0 st_r) /\ smart_log odd 100 0 st_r st_H
  /\ quiet (filtered 100 odd) (at_rest (filtered 100 odd) 0 st_r)
  /\ map val_of (seen (at_rest (filtered 100 odd) 0 st_r)) = [Some (0, [1]); Some (1, [3]); Some (3, [5])].
Proof. exact (conj st_c_ok (conj st_hist smart_demo)). Qed.

(** C35.  Each part of the domain is needed.  If what passes of a batch exceeds
    the limit, the stream skips everything; *)
Theorem C35_too_big_refuted : exists c p sm s r H y b, lost c p sm s r H y b /\ aligned s H /\ sure sm r s H.
Proof. exact too_big_refuted. Qed.
Print Assumptions C35_too_big_refuted.
(** if nothing passes in one segment, the following segments are skipped; *)
Theorem C35_segment_refuted : exists c p sm s r H y b, lost c p sm s r H y b /\ aligned s H /\ fits sm (p_max p) s H.
Proof. exact segment_refuted. Qed.
Print Assumptions C35_segment_refuted.
(** if the start lies inside a batch, a record at or after the start that passes
    can be dropped by the client. *)
Theorem C35_inside_refuted : exists c p sm s r H y b x, lost c p sm s r H y b /\ fits sm (p_max p) s H /\ sure sm r s H
  /\ In x (records_of b) /\ s <= fst x /\ In (snd x) (passed sm b).
Proof. exact inside_refuted. Qed.
Print Assumptions C35_inside_refuted.

(** C36.  When as many records leave the SmartModule as enter it, each carries the
    offset of the record it was made from. *)
Theorem C36_offsets_kept : forall c p s sm, config_ok c -> 0 <= s -> p_sm p = Some sm ->
  forall r0 H0 H y, hist c r0 H0 -> s <= log_limit (p_iso p) r0 -> run c p s r0 H0 H y -> smart_log sm (p_max p) s (y_store y) H /\ one_to_one sm s H ->
  exists q e, map snapshot (y_out y) = map Some (numbered_passed sm (batches_between s q H)) ++ e /\ s <= q <= log_limit (p_iso p) (y_store y) /\ (e = [] \/ e = [None]).
Proof. exact exact_offsets. Qed.
Print Assumptions C36_offsets_kept.
Example C36_demo : smart_log upper 100 0 st_r st_H /\ one_to_one upper 0 st_H
  /\ map val_of (seen (at_rest (filtered 100 upper) 0 st_r)) = [Some (0, [65]); Some (1, [66]); Some (2, [67]); Some (3, [68]); Some (4, [69])].
Proof. exact exact_demo. Qed.
(** C36.  When records are dropped, those that follow in the response are shown
    with offsets that are not theirs. *)
Theorem C36_filtered_refuted : exists c p sm s r H y o v, config_ok c /\ p_sm p = Some sm /\ hist c r H /\ 0 <= s <= log_limit (p_iso p) r
  /\ run c p s r H H y /\ smart_log sm (p_max p) s r H
  /\ In (Some (o, v)) (map val_of (seen y)) /\ ~ In (o, v) (map (fun x => (fst x, r_val (snd x))) (flat_map records_of H)).
Proof. exact offset_refuted. Qed.
Print Assumptions C36_filtered_refuted.
