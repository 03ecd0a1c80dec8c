(** C69 to C73: what SmartModules do to the records of a stream and of a write. *)
From Verif Require Import StorageSpec RecordSpec StreamModel StreamSpec StreamClaims LookbackModel LookbackSpec LookbackClaims.
From Verif Require Import EngineModel EngineSpec EngineProofs EngineClaims.

(** C69.  A stream through a chain of SmartModules, while the log grows: as long as
    the chain does not fail and every response has room for all that comes out,
    the application has been given what the chain makes of the records from the
    start of the stream to its position, in one go. *)
Theorem C69_as_whole : forall c iso mx s is r0 H0 r H t, config_ok c -> hist c r0 H0 -> 0 <= s <= log_limit iso r0 -> arrays_last is ->
  streamed c iso mx s is r0 H0 r H t -> Forall numbered H ->
  exists outs, whole is (log_of (batches_between s (t_pos t) H)) = Some (t_chain t, outs) /\ told_all t = map inl (map pair_of outs).
Proof. exact (fun c iso mx s is r0 H0 r H t CO HI S AL SD NU => proj2 (proj2 (streamed_inv c iso mx s is r0 H0 r H t CO HI S AL SD NU))). Qed.
Print Assumptions C69_as_whole.
(** C69.  And the next response brings it to the end of the log. *)
Theorem C69_everything : forall c iso mx s is r0 H0 r H t, config_ok c -> hist c r0 H0 -> 0 <= s <= log_limit iso r0 -> arrays_last is ->
  streamed c iso mx s is r0 H0 r H t -> Forall numbered H -> in_reach r H t -> smooth iso mx r H t ->
  exists t' outs, serve iso mx s r t = Some t' /\ whole is (log_of (ahead iso s r H)) = Some (t_chain t', outs) /\ told_all t' = map inl (map pair_of outs).
Proof. exact streamed_all. Qed.
Print Assumptions C69_everything.
Example C69_ex : config_ok lb_c /\ hist lb_c lb_r lb_H /\ Forall numbered lb_H
  /\ arrays_last odd_chain /\ 0 <= 0 <= log_limit ReadCommitted lb_r /\ in_reach lb_r lb_H (open_stream odd_chain 0) /\ smooth ReadCommitted 1000 lb_r lb_H (open_stream odd_chain 0)
  /\ exists t, serve ReadCommitted 1000 0 lb_r (open_stream odd_chain 0) = Some t /\ streamed lb_c ReadCommitted 1000 0 odd_chain lb_r lb_H lb_r lb_H t
     /\ told_all t = [value 2; value 6; value 12].
Proof. exact (conj lb_c_ok (conj lb_hist (conj lb_numbered whole_demo))). Qed.
(** C69.  With an array-map before another module the result depends on how the
    producer put the records into batches: the later module sees wrong offsets. *)
Theorem C69_batching_refuted : exists c is mx r H r' H' t t', config_ok c /\ hist c r H /\ hist c r' H' /\ Forall numbered H /\ Forall numbered H' /\ same_records H H'
  /\ serve ReadCommitted mx 0 r (open_stream is 0) = Some t /\ t_pos t = get_hw r
  /\ serve ReadCommitted mx 0 r' (open_stream is 0) = Some t' /\ t_pos t' = get_hw r'
  /\ told_all t = [] /\ told_all t' = [value 2].
Proof. exact batching_refuted. Qed.
Print Assumptions C69_batching_refuted.
(** C69.  When a response is full, the batch that did not fit has been counted by
    the aggregate, and is counted again for the next response. *)
Theorem C69_counted_twice_refuted : exists c is mx r H t1 t2 is' outs, config_ok c /\ hist c r H /\ Forall numbered H /\ no_arrays is /\ in_reach r H (open_stream is 0)
  /\ (forall b, In b H -> c_size memory_codec (map snd (records_of b)) <= mx)
  /\ serve ReadCommitted mx 0 r (open_stream is 0) = Some t1 /\ serve ReadCommitted mx 0 r t1 = Some t2
  /\ whole is (log_of (batches_between 0 (t_pos t2) H)) = Some (is', outs)
  /\ map (fun v => inl (pair_of v)) outs = [value 1; value 3; value 6; value 10]
  /\ told_all t2 = [value 1; value 3; value 13; value 17].
Proof. exact twice_refuted. Qed.
Print Assumptions C69_counted_twice_refuted.

(** C70.  When the last module of the chain returns an error for a record, the
    application is given all that comes out of the chain for the records before it,
    and then an error with the offset of the record and the key and value the
    module was shown. *)
Theorem C70_reports : forall c iso mx s front i r0 H0 r H t f' before bad after i1 outs, config_ok c -> hist c r0 H0 -> 0 <= s <= log_limit iso r0 -> no_arrays front ->
  streamed c iso mx s (front ++ [i]) r0 H0 r H t -> Forall numbered H -> in_reach r H t ->
  whole front (log_of (ahead iso s r H)) = Some (f', before ++ bad :: after) -> over i before = Some (i1, outs) -> rejects i1 bad -> bulk outs <= mx ->
  exists t' b, serve iso mx s r t = Some t' /\ told_all t' = map inl (map pair_of outs) ++ [inr (blames bad)]
    /\ In b (ahead iso s r H) /\ b_base b <= v_off bad < batch_end b
    /\ (told_all t <> map inl (map pair_of outs) -> t_pos t' = batch_end b)
    /\ (told_all t = map inl (map pair_of outs) -> t_pos t' = log_limit iso r).
Proof. exact streamed_fails. Qed.
Print Assumptions C70_reports.
Example C70_ex : config_ok lb_c /\ hist lb_c lb_r lb_H /\ Forall numbered lb_H /\ let front := [second] in let i := not_a 4 in let t := open_stream (front ++ [i]) 0 in
  no_arrays front /\ 0 <= 0 <= log_limit ReadCommitted lb_r /\ streamed lb_c ReadCommitted 1000 0 (front ++ [i]) lb_r lb_H lb_r lb_H t /\ in_reach lb_r lb_H t
  /\ exists f' before bad after i1 outs, whole front (log_of (ahead ReadCommitted 0 lb_r lb_H)) = Some (f', before ++ bad :: after) /\ over i before = Some (i1, outs) /\ rejects i1 bad /\ bulk outs <= 1000
     /\ map pair_of outs = [(None, [2])] /\ blames bad = mkErr 3 None [4] /\ told_all t <> map inl (map pair_of outs).
Proof. exact (conj lb_c_ok (conj lb_hist (conj lb_numbered fails_demo))). Qed.
(** C70.  When an earlier module fails, records of its batch are given to the
    application that have not been through the modules after it: here the value 1,
    although the second module turns every value into 0. *)
Theorem C70_unfinished_refuted : exists c i j mx r H t', config_ok c /\ hist c r H /\ Forall numbered H /\ in_reach r H (open_stream [i; j] 0)
  /\ (forall v, one j v = Some (j, [remake v (v_key v, [0])]))
  /\ serve ReadCommitted mx 0 r (open_stream [i; j] 0) = Some t' /\ told_all t' = [value 1; inr (mkErr 1 None [2])].
Proof. exact unfinished_refuted. Qed.
Print Assumptions C70_unfinished_refuted.

(** C71.  The response after an error (or any other): what the chain, as it is now,
    makes of the records from the position of the stream on.  (The position after
    an error is in C70_reports: the end of the batch of the failing record, if the
    response with the error brought any records.) *)
Theorem C71_resumes : forall c iso mx s r H t, config_ok c -> hist c r H -> Forall numbered H -> in_reach r H t -> 0 <= s <= t_pos t -> t_pos t <= log_limit iso r -> arrays_last (t_chain t) ->
  smooth iso mx r H t ->
  exists t' outs, serve iso mx s r t = Some t' /\ whole (t_chain t) (log_of (ahead iso (t_pos t) r H)) = Some (t_chain t', outs) /\ told_all t' = told_all t ++ map inl (map pair_of outs).
Proof. exact resumes. Qed.
Print Assumptions C71_resumes.
Example C71_ex : config_ok lb_c /\ hist lb_c lb_r lb_H /\ Forall numbered lb_H /\ exists t, let s := 0 in in_reach lb_r lb_H t /\ 0 <= s <= t_pos t /\ t_pos t <= log_limit ReadCommitted lb_r /\ arrays_last (t_chain t)
  /\ smooth ReadCommitted 1000 lb_r lb_H t /\ told_all t = [value 1; inr (mkErr 1 None [2])] /\ map v_val (log_of (ahead ReadCommitted (t_pos t) lb_r lb_H)) = [[3]; [4]; [5]; [6]].
Proof. exact (conj lb_c_ok (conj lb_hist (conj lb_numbered resumes_demo))). Qed.
(** C71.  The records after the failing one in its batch are never given; *)
Theorem C71_batch_skipped_refuted : exists c i mx r H t' good, config_ok c /\ hist c r H /\ Forall numbered H
  /\ In good (log_of (ahead ReadCommitted 0 r H)) /\ v_val good = [3] /\ one i good = Some (i, [good])
  /\ serve ReadCommitted mx 0 r (open_stream [i] 0) = Some t' /\ told_all t' = [value 1; inr (mkErr 1 None [2])]
  /\ serve ReadCommitted mx 0 r t' = Some t'.
Proof. exact skipped_refuted. Qed.
Print Assumptions C71_batch_skipped_refuted.
(** C71.  and when the response with the error brings no records, nothing of all
    that was committed is given, in whatever batch it is. *)
Theorem C71_all_skipped_refuted : exists c i mx r H t', config_ok c /\ hist c r H /\ Forall numbered H
  /\ map v_val (log_of (ahead ReadCommitted 0 r H)) = [[1]; [2]; [3]; [4]; [5]; [6]] /\ (forall v, first_byte (v_val v) <> 1 -> one i v = Some (i, [v]))
  /\ serve ReadCommitted mx 0 r (open_stream [i] 0) = Some t' /\ told_all t' = [inr (mkErr 0 None [1])]
  /\ serve ReadCommitted mx 0 r t' = Some t'.
Proof. exact all_skipped_refuted. Qed.
Print Assumptions C71_all_skipped_refuted.

(** C72.  Without SmartModules, and with the timestamp of its first record after
    1970, the records of a batch come with the offsets and timestamps they were
    stored with. *)
Theorem C72_plain : forall b m, to_memory b = Ok m -> numbered b -> 0 < h_first_ts (b_hdr b) ->
  map (fun c => (cr_offset c, consumer_time c)) (into_consumer_records m 0) = map (fun x => (offset_of x, time_of x)) (stamped b).
Proof. exact plain_time. Qed.
Print Assumptions C72_plain.
Example C72_ex : let b := timed 100 [[1]; [2]] in exists m, to_memory b = Ok m /\ numbered b /\ 0 < h_first_ts (b_hdr b) /\ map (fun x => (offset_of x, time_of x)) (stamped b) = [(0, 100); (1, 101)].
Proof. exact plain_time_demo. Qed.
(** C72.  No record that has been through a SmartModule has a timestamp: not in a
    stream, *)
Theorem C72_never : forall iso mx s r is pos t', serve iso mx s r (mkStream is pos []) = Some t' -> forall c, In (GRec c) (t_out t') -> consumer_time c = -1.
Proof. exact given_time. Qed.
Print Assumptions C72_never.
Theorem C72_timestamp_refuted : exists c mx r H t', config_ok c /\ hist c r H /\ Forall numbered H
  /\ serve ReadCommitted mx 0 r (open_stream [all_pass] 0) = Some t' /\ told_all t' = map inl (map pair_of (log_of (ahead ReadCommitted 0 r H)))
  /\ map v_ts (log_of (ahead ReadCommitted 0 r H)) = [100; 101; 200; 201; 300; 301]
  /\ forall g, In g (t_out t') -> exists c, g = GRec c /\ consumer_time c = -1.
Proof. exact time_refuted. Qed.
Print Assumptions C72_timestamp_refuted.
(** C72.  and not in what is stored in a topic with a transformation. *)
Theorem C72_never_stored : forall is l is' b, transform is l = Stored is' [b] -> h_first_ts (b_hdr b) = -1 /\ h_max_ts (b_hdr b) = -1.
Proof. exact written_time. Qed.
Print Assumptions C72_never_stored.
Example C72_stored_ex : exists is' b, transform [all_pass] [timed 100 [[1]; [2]]] = Stored is' [b] /\ h_first_ts (b_hdr (timed 100 [[1]; [2]])) = 100.
Proof. exact written_demo. Qed.
(** C72.  A SmartModule sees the true offset and timestamp of a record of the stream
    ([log_of] in C69), but not of a record it looks back at. *)
Theorem C72_look_back_refuted : exists c r H n l, config_ok c /\ hist c r H /\ Forall numbered H /\ read_lookback r (Last n) = Done l /\ l = map snd (lastn (Z.to_nat n) (committed r H))
  /\ map (fun v => (v_off v, v_ts v)) (map as_seen (lastn (Z.to_nat n) (committed r H))) = [(3, 201); (4, 300); (5, 301)]
  /\ map (fun v => (v_off v, v_ts v)) (look_back_input l) = [(1, 1); (0, 0); (1, 1)].
Proof. exact look_back_refuted. Qed.
Print Assumptions C72_look_back_refuted.

(** C73.  A write to a topic with a transformation that makes one record of each:
    one batch is stored, with what the transformation makes of the records of the
    write, and it takes as many offsets as the write had records. *)
Theorem C73_stores : forall is is' vs l, Forall sent l -> l <> [] -> one_each is -> whole is (log_of l) = Some (is', vs) -> bulk vs <= 2 ^ 64 - 1 ->
  exists m, transform is l = Stored is' [to_raw m] /\ map (fun r => (r_key r, r_val r)) (b_recs m) = map pair_of vs
    /\ records_len (to_raw m) = zlen (log_of l) /\ (records_ok (b_recs m) -> honest (to_raw m)).
Proof. exact stores_each. Qed.
Print Assumptions C73_stores.
Example C73_ex : Forall sent two_writes /\ one_each [hide; total] /\ one_each [total; hide]
  /\ exists is vs m, whole [total] (log_of two_writes) = Some (is, vs) /\ bulk vs <= 2 ^ 64 - 1 /\ map pair_of vs = [(None, [1]); (None, [3]); (None, [6])]
     /\ transform [total] two_writes = Stored is [to_raw m] /\ records_ok (b_recs m).
Proof. exact stores_demo. Qed.
(** C73.  A filter: the stored batch takes more offsets than it has records. *)
Theorem C73_gaps_refuted : exists is is' b b' m, Forall sent [b] /\ transform is [b] = Stored is' [b'] /\ to_memory b' = Ok m /\ map r_val (b_recs m) = [[2]] /\ records_len b' = 2.
Proof. exact gaps_refuted. Qed.
Print Assumptions C73_gaps_refuted.
(** C73.  An array-map: a consumer is given two different records with the same
    offset. *)
Theorem C73_same_offset_refuted : exists c is is' is'' b1 b2 l1 l2, let r := put c true (put c true (fresh c 0) l1) l2 in
  config_ok c /\ Forall sent [b1; b2] /\ transform is [b1] = Stored is' l1 /\ transform is' [b2] = Stored is'' l2
  /\ quiet (plain 1000) (at_rest (plain 1000) 0 r)
  /\ map val_of (seen (at_rest (plain 1000) 0 r)) = [Some (0, [1]); Some (1, [1]); Some (1, [2]); Some (2, [2])].
Proof. exact same_offset_refuted. Qed.
Print Assumptions C73_same_offset_refuted.
(** C73.  Two batches in one record set (the Rust producer sends one): the stored records carry wrong positions, and
    a SmartModule of a consumer is shown the same offset for two records. *)
Theorem C73_positions_refuted : exists is is' l b m, Forall sent l /\ one_each is /\ transform is l = Stored is' [b] /\ honest b
  /\ to_memory b = Ok m /\ map (fun r => v_off (show 0 0 r)) (b_recs m) = [0; 1; 0].
Proof. exact positions_refuted. Qed.
Print Assumptions C73_positions_refuted.
(** C73.  A write that is refused with an error changes what is stored for later
    writes. *)
Theorem C73_refused_refuted : exists is l, Forall (Forall sent) l
  /\ map stored_values (writes is l) = [Some [[1]]; None; Some [[4]]]
  /\ map stored_values (writes is (firstn 1 l ++ skipn 2 l)) = [Some [[1]]; Some [[2]]].
Proof. exact traces_refuted. Qed.
Print Assumptions C73_refused_refuted.
