(** Properties of produce responses: theorems only. *)
From Verif Require Import ProduceModel StorageSpec ProduceSpec RecordSpec StorageClaims ProduceClaims.

(** C33.  [pre]: the SmartModules of the request; [dedup]: the deduplication
    module of the topic.  A response without error: what is left after them is
    stored, from the offset in the response on. *)
Theorem C33_stored_where_said : forall c now pre dedup ld l l1 l2 ld' res, config_ok c -> reached c (l_store ld) ->
  pre l = Some l1 -> 0 < total l1 -> dedup l1 = Some l2 -> 0 < total l2 -> Forall raw_batch_ok l2 -> room (l_store ld) l2 ->
  produce_partition c now pre dedup (Some ld) l = (ld', res) -> p_code res = NoError ->
  exists ld1, ld' = Some ld1 /\ appended (l_store ld) (l_store ld1) (p_base res) l2.
Proof. exact stored_where_said. Qed.
Print Assumptions C33_stored_where_said.
(** With committed isolation some state seen before the response has a
    watermark beyond the records, and committed readers can read every one of
    them (unless retention has removed it meanwhile). *)
Theorem C33_committed : forall c now pre dedup ld l l1 l2 ld1 res first later, config_ok c -> reached c (l_store ld) ->
  pre l = Some l1 -> 0 < total l1 -> dedup l1 = Some l2 -> 0 < total l2 -> Forall raw_batch_ok l2 -> room (l_store ld) l2 ->
  produce_partition c now pre dedup (Some ld) l = (Some ld1, res) ->
  (forall x, In x (later ++ match first with Some y => [y] | None => [] end) -> steps c anything (l_store ld1) (l_store x)) ->
  p_code (wait_for_ack ReadCommitted res first later) = NoError ->
  let base := p_base (wait_for_ack ReadCommitted res first later) in
  appended (l_store ld) (l_store ld1) base l2 /\
  exists x, (In x later \/ first = Some x) /\ base + total l2 <= get_hw (l_store x)
    /\ forall o, base <= o < base + total l2 -> get_log_start (l_store x) <= o ->
       exists b, In b (number base l2) /\ visible (l_store x) b o.
Proof. exact committed_response. Qed.
Print Assumptions C33_committed.
Example C33_committed_ex : 
  let done := produce_partition demo_c 0 as_is as_is (Some (led 2 demo_r)) one in
  let later := [led 2 (update_hw (fst (write_recordset demo_c 0 demo_r one false)) 14)] in
  p_code (wait_for_ack ReadCommitted (snd done) (fst done) later) = NoError
  /\ p_base (wait_for_ack ReadCommitted (snd done) (fst done) later) = 12 /\ total one = 2.
Proof. vm_compute. auto. Qed.
(** Nothing was left to store: nothing is stored. *)
Theorem C33_nothing_left : forall c now pre dedup ld l l1 ld' res, pre l = Some l1 ->
  (total l1 = 0 \/ exists l2, dedup l1 = Some l2 /\ total l2 = 0) ->
  produce_partition c now pre dedup (Some ld) l = (ld', res) -> ld' = Some ld.
Proof. exact nothing_left. Qed.
Print Assumptions C33_nothing_left.
(** Refusals leave the partition as it was. *)
Theorem C33_refused : forall c iso now pre dedup ld l ld' res first later, config_ok c -> reached c (l_store ld) ->
  (forall l1 l2, pre l = Some l1 -> dedup l1 = Some l2 -> Forall raw_batch_ok l2 /\ room (l_store ld) l2) ->
  produce_partition c now pre dedup (Some ld) l = (ld', res) -> refused (p_code (wait_for_ack iso res first later)) -> ld' = Some ld.
Proof. exact refused_response. Qed.
Print Assumptions C33_refused.
Theorem C33_refused_because : forall c now pre dedup ld l l1,
  (pre l = None -> p_code (snd (produce_partition c now pre dedup (Some ld) l)) = SmartModuleError)
  /\ (pre l = Some l1 -> 0 < total l1 -> l_compression ld = None -> p_code (snd (produce_partition c now pre dedup (Some ld) l)) = TopicNotFound)
  /\ (forall alg b x, pre l = Some l1 -> 0 < total l1 -> l_compression ld = Some (Some alg) -> In b l1 -> get_compression (b_hdr b) = Ok x -> x <> alg ->
      p_code (snd (produce_partition c now pre dedup (Some ld) l)) = CompressionError)
  /\ (forall alg l2 b, pre l = Some l1 -> 0 < total l1 -> l_compression ld = Some alg -> validate_records l1 alg = true -> dedup l1 = Some l2 -> 0 < total l2 ->
      In b l2 -> c_seg_max c < batch_size raw_codec b \/ c_req_max c < batch_size raw_codec b ->
      p_code (snd (produce_partition c now pre dedup (Some ld) l)) = MessageTooLarge)
  /\ (forall alg b e, pre l = Some l1 -> 0 < total l1 -> l_compression ld = Some alg -> In b l1 -> get_compression (b_hdr b) = Err e ->
      p_code (snd (produce_partition c now pre dedup (Some ld) l)) = CompressionError)
  /\ (forall alg, pre l = Some l1 -> 0 < total l1 -> l_compression ld = Some alg -> validate_records l1 alg = true -> dedup l1 = None ->
      p_code (snd (produce_partition c now pre dedup (Some ld) l)) = SmartModuleError).
Proof. exact refused_because. Qed.
Print Assumptions C33_refused_because.
(** One response per partition of the request, in the order of the request. *)
Theorem C33_responses_in_order : forall c iso pre dedup ts,
  map (fun x => fst (fst x)) (handle_request c iso pre dedup ts) = map t_index ts.
Proof. exact responses_in_order. Qed.
Print Assumptions C33_responses_in_order.
(** The findings: an error response although the records are stored, or part of
    them; success with an offset at which nothing was stored. *)
Theorem C33_timed_out_refuted : exists c ld l ld1 first, config_ok c /\ reached c (l_store ld) /\ Forall raw_batch_ok l /\ room (l_store ld) l
  /\ fst (produce_partition c 0 as_is as_is (Some ld) l) = Some ld1
  /\ p_code (wait_for_ack ReadCommitted (snd (produce_partition c 0 as_is as_is (Some ld) l)) first []) = RequestTimedOut
  /\ get_leo (l_store ld) < get_leo (l_store ld1) /\ log_bytes (l_store ld1) <> log_bytes (l_store ld).
Proof. exact timed_out_refuted. Qed.
Print Assumptions C33_timed_out_refuted.
Theorem C33_no_longer_leader_refuted : exists c ld l ld1, config_ok c /\ reached c (l_store ld) /\ Forall raw_batch_ok l /\ room (l_store ld) l
  /\ fst (produce_partition c 0 as_is as_is (Some ld) l) = Some ld1
  /\ p_code (wait_for_ack ReadCommitted (snd (produce_partition c 0 as_is as_is (Some ld) l)) None []) = NotLeaderForPartition
  /\ get_leo (l_store ld) < get_leo (l_store ld1).
Proof. exact no_longer_leader_refuted. Qed.
Print Assumptions C33_no_longer_leader_refuted.
Theorem C33_storage_error_refuted : exists c ld l ld1, config_ok c /\ reached c (l_store ld) /\ Forall raw_batch_ok l /\ room (l_store ld) l
  /\ produce_partition c 0 as_is as_is (Some ld) l = (Some ld1, failed StorageErrorCode)
  /\ get_leo (l_store ld) < get_leo (l_store ld1).
Proof. exact storage_error_refuted. Qed.
Print Assumptions C33_storage_error_refuted.
Theorem C33_deduplicated_refuted : exists c ld l res, config_ok c /\ reached c (l_store ld) /\ Forall raw_batch_ok l
  /\ produce_partition c 0 as_is (fun _ => Some []) (Some ld) l = (Some ld, res)
  /\ p_code res = NoError /\ p_base res = 6 /\ get_leo (l_store ld) = 12.
Proof. exact deduplicated_refuted. Qed.
Print Assumptions C33_deduplicated_refuted.
