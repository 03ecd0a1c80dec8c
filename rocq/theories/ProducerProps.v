(** Properties of the producer: theorems only.  [prun k producer0 l = (s, os)]:
    with the configuration [k] the events [l] lead to the state [s], and the
    calls of the application return [os]. *)
From Coq Require Import Sorting.Sorted.
From Verif Require Import ProducerModel StorageSpec RecordSpec ProducerSpec StorageClaims ProducerClaims.

(** C37.  Every request answered: what arrived, followed by what is still
    queued, is what was accepted, in order and once. *)
Theorem C37_once_in_order : forall k T l s os, conf_ok k -> 0 <= T < 2 ^ 62 -> events_ok T l -> smooth l -> prun k producer0 l = (s, os) ->
  carried_all (s_wire s) ++ queued s = taken l os.
Proof. exact once_in_order. Qed.
Print Assumptions C37_once_in_order.
(** Any failures: the accepted records are cut into requests, in order; each
    request arrives at most once with at-most-once delivery, and at most as often
    as it is tried with at-least-once delivery, and before any later request. *)
Theorem C37_every_run : forall k T l s os, conf_ok k -> 0 <= T < 2 ^ 62 -> events_ok T l -> prun k producer0 l = (s, os) ->
  exists requests copies, length copies = length requests /\ Forall (fun c => (c <= most (k_delivery k))%nat) copies
  /\ s_wire s = flat_map (fun p => repeat (fst p) (snd p)) (combine requests copies)
  /\ carried_all requests ++ queued s = taken l os.
Proof. exact every_run. Qed.
Print Assumptions C37_every_run.
Theorem C37_sizes : forall k T l s os q b, conf_ok k -> 0 <= T < 2 ^ 62 -> events_ok T l -> prun k producer0 l = (s, os) -> In q (s_wire s) -> In b q ->
  zlen (batch_enc raw_codec b) <= k_request k /\ (zlen (batch_enc raw_codec b) <= k_batch k \/ zlen (carried b) = 1).
Proof. exact wire_sizes. Qed.
Print Assumptions C37_sizes.
Theorem C37_queue_bounded : forall k T l s os, conf_ok k -> 0 <= T < 2 ^ 62 -> events_ok T l -> prun k producer0 l = (s, os) -> zlen (s_queue s) <= k_queue k.
Proof. exact queue_bounded. Qed.
Print Assumptions C37_queue_bounded.
(** A flush asked for by the application empties the queue. *)
Theorem C37_flush_sends : forall k s t a x, 0 < s_flush s -> s_queue (fst (pstep k s (TakeFlush t (a :: x)))) = [].
Proof. exact flush_sends. Qed.
Print Assumptions C37_flush_sends.
(** Without flush: when the producer has nothing more to do, nothing is queued. *)
Theorem C37_nothing_left : forall k T l s os, conf_ok k -> 0 <= T < 2 ^ 62 -> events_ok T l -> steady l -> prun k producer0 l = (s, os) -> idle s ->
  s_queue s = [].
Proof. exact none_left. Qed.
Print Assumptions C37_nothing_left.
(** A batch that is full does not wait for the timer: the task that sends has
    been told of it, and takes it out when it takes the notification. *)
Theorem C37_full_sent : forall k l s os, prun k producer0 l = (s, os) -> due k s ->
  0 < s_full s /\ forall t a x, ~ due k (fst (pstep k s (TakeFull t (a :: x)))).
Proof. exact full_sent. Qed.
Print Assumptions C37_full_sent.
Example C37_full_ex : due demo_k (fst (prun demo_k producer0 [Push small (at_ 0) (at_ 0) (at_ 0); Push small (at_ 1) (at_ 1) (at_ 1); Push big (at_ 2) (at_ 2) (at_ 2)])).
Proof. right. vm_compute. reflexivity. Qed.
Example C37_ex : conf_ok demo_k /\ events_ok 1000 demo_run /\ smooth demo_run /\ steady demo_run
  /\ idle (fst (prun demo_k producer0 demo_run))
  /\ taken demo_run (snd (prun demo_k producer0 demo_run)) = map payload_of [small; small; big; small; small]
  /\ map (map (fun b => zlen (carried b))) (s_wire (fst (prun demo_k producer0 demo_run))) = [[2; 1]; [1]; []; [1]; []].
Proof.
  split; [apply pk_ok; reflexivity|]. split; [exact demo_ok|]. split; [exact demo_smooth|]. split; [exact demo_steady|].
  split; [vm_compute; auto|]. split; vm_compute; reflexivity.
Qed.
(** As long as there is no connection, everything accepted is queued, in order,
    and nobody is told anything. *)
Theorem C37_unconnected : forall k T l s os, conf_ok k -> 0 <= T < 2 ^ 62 -> events_ok T l -> unconnected l -> prun k producer0 l = (s, os) ->
  queued s = taken l os /\ s_wire s = [] /\ s_notes s = [] /\ s_error s = false.
Proof. exact waits_for_connection. Qed.
Print Assumptions C37_unconnected.
Example C37_unconnected_ex : let l := [Push small (at_ 0) (at_ 0) (at_ 0); TakeNew (at_ 0); Linger (at_ 200) []; Push big (at_ 201) (at_ 201) (at_ 201)] in
  unconnected l /\ taken l (snd (prun demo_k producer0 l)) = map payload_of [small; big].
Proof. split; [unfold unconnected; attempts_tac|vm_compute; reflexivity]. Qed.
(** The findings: a batch stays behind when the wall clock is set back; a request larger than its limit; a record that
    arrives twice. *)
Theorem C37_clock_refuted : exists k T l s os, conf_ok k /\ events_ok T l /\ smooth l /\ StronglySorted (fun a b => mono a <= mono b) (flat_map readings_of l)
  /\ prun k producer0 l = (s, os) /\ idle s /\ taken l os = [payload_of small] /\ carried_all (s_wire s) = [].
Proof. exact clock_refuted. Qed.
Print Assumptions C37_clock_refuted.
Theorem C37_request_refuted : exists k T l s os q, conf_ok k /\ events_ok T l /\ smooth l /\ prun k producer0 l = (s, os)
  /\ In q (s_wire s) /\ k_request k < fold_right Z.add 0 (map (fun b => zlen (batch_enc raw_codec b)) q).
Proof. exact request_refuted. Qed.
Print Assumptions C37_request_refuted.
Theorem C37_retry_refuted : exists k T l s os, conf_ok k /\ events_ok T l /\ prun k producer0 l = (s, os) /\ idle s
  /\ taken l os = [payload_of small] /\ carried_all (s_wire s) = [payload_of small; payload_of small].
Proof. exact retry_refuted. Qed.
Print Assumptions C37_retry_refuted.

(** C38.  At-least-once delivery, an SPU that stores what it is sent: the offset
    the application is told is where a reader finds the record, in the log the
    request was written to. *)
Theorem C38_offset : forall c iso k T l s os n id off x o, config_ok c -> conf_ok k -> 0 <= T < 2 ^ 62 -> events_ok T l -> k_delivery k = AtLeastOnce n ->
  prun k producer0 l = (s, os) ->
  (forall q a z rs, In (q, a) (s_sent s) -> In (mkAttempt z (Replied rs)) a -> exists ts, answered c iso keep_all keep_all q rs ts) ->
  receipt l os id off x -> wait_for s id off = Some (Some o) ->
  exists q a z rs ts i p ld, In (q, a) (s_sent s) /\ In (mkAttempt z (Replied rs)) a /\ answered c iso keep_all keep_all q rs ts
    /\ In (i, p, Some ld) (handle_request c iso keep_all keep_all ts) /\ finds (l_store ld) o x.
Proof. exact stored_at_offset. Qed.
Print Assumptions C38_offset.
Example C38_ex : let s := fst (prun two_k producer0 two_sent) in
  answered demo_c ReadUncommitted keep_all keep_all (t_records two_turn) [(0, NoError)] [two_turn]
  /\ s_sent s = [(t_records two_turn, [mkAttempt true (Replied [(0, NoError)])])]
  /\ receipt two_sent (snd (prun two_k producer0 two_sent)) 0 1 (payload_of small) /\ wait_for s 0 1 = Some (Some 1).
Proof.
  split; [split; [vm_compute; reflexivity|split; [vm_compute; reflexivity|constructor; [|constructor]; intros ld [= <-]; split; [apply reached_fresh|room_tac]]]|].
  split; [vm_compute; reflexivity|]. split; [|vm_compute; reflexivity].
  exists 1%nat. do 4 eexists. split; [reflexivity|]. split; vm_compute; reflexivity.
Qed.
(** The finding: a SmartModule of the producer dropped a record. *)
Theorem C38_smartmodule_refuted : exists c pre k T l s os q rs ts id off o ld, config_ok c /\ conf_ok k /\ events_ok T l /\ prun k producer0 l = (s, os)
  /\ s_sent s = [(q, [mkAttempt true (Replied rs)])] /\ answered c ReadUncommitted pre keep_all q rs ts
  /\ receipt l os id off (payload_of small) /\ wait_for s id off = Some (Some o)
  /\ map snd (handle_request c ReadUncommitted pre keep_all ts) = [Some ld] /\ get_leo (l_store ld) <= o.
Proof. exact smartmodule_refuted. Qed.
Print Assumptions C38_smartmodule_refuted.

(** C39.  At-least-once delivery: success is reported only if the response has
    no error for the batch of the record, and the offset is the one in it. *)
Theorem C39_success_only : forall k T l s os n id off x o, conf_ok k -> 0 <= T < 2 ^ 62 -> events_ok T l -> k_delivery k = AtLeastOnce n ->
  prun k producer0 l = (s, os) -> receipt l os id off x -> wait_for s id off = Some (Some o) ->
  exists q a z rs i b, In (q, a) (s_sent s) /\ In (mkAttempt z (Replied rs)) a
    /\ nth_error q i = Some b /\ nth_error rs i = Some (o - off, NoError) /\ 0 <= off /\ nth_error (carried b) (Z.to_nat off) = Some x.
Proof. exact success_only. Qed.
Print Assumptions C39_success_only.
(** Nobody waits for a record that is no longer queued. *)
Theorem C39_always_told : forall k T l s os id off x, conf_ok k -> 0 <= T < 2 ^ 62 -> events_ok T l -> prun k producer0 l = (s, os) -> receipt l os id off x ->
  (exists b, In b (s_queue s) /\ mb_id b = id) \/ wait_for s id off <> None.
Proof. exact always_told. Qed.
Print Assumptions C39_always_told.
(** A request that no attempt got an answer for shows in the next push. *)
Theorem C39_failure_shown : forall k n s e a r t1 t2 t3, k_delivery k = AtLeastOnce n -> attempts_of e = Some a -> (forall x rs, In x a -> a_answer x <> Replied rs) ->
  fst (pstep k s e) <> s -> snd (push k t1 t2 t3 (fst (pstep k s e)) r) = LastError.
Proof. exact failure_shown. Qed.
Print Assumptions C39_failure_shown.
(** The flush of all partitions succeeds exactly if all do, provided the two
    maps are iterated in the same order. *)
Theorem C39_flush_all : forall fails l errs, flush_all fails errs (combine l l) = true <-> forall p, In p l -> fails p = false /\ errs p = false.
Proof. exact flush_all_same. Qed.
Print Assumptions C39_flush_all.
Theorem C39_at_most_once_refuted : exists k T l s os id off x o, conf_ok k /\ events_ok T l /\ k_delivery k = AtMostOnce /\ prun k producer0 l = (s, os)
  /\ (forall q a, In (q, a) (s_sent s) -> a = [mkAttempt true (Replied [(0, MessageTooLarge)])])
  /\ receipt l os id off x /\ wait_for s id off = Some (Some o).
Proof. exact at_most_once_refuted. Qed.
Print Assumptions C39_at_most_once_refuted.
Theorem C39_flush_all_refuted : exists fails ps qs, Permutation.Permutation ps qs /\ NoDup ps /\ (exists p, In p ps /\ fails p = true)
  /\ flush_all fails (fun _ => false) (combine ps qs) = true.
Proof. exact flush_all_refuted. Qed.
Print Assumptions C39_flush_all_refuted.

(** C40.  What is accepted fits into a request by itself ... *)
Theorem C40_accepted_fits : forall k T l s os r t1 t2 t3 id off, conf_ok k -> 0 <= T < 2 ^ 62 -> events_ok T (l ++ [Push r t1 t2 t3]) -> prun k producer0 l = (s, os) ->
  snd (push k t1 t2 t3 s r) = Accepted id off -> smallest r <= k_request k.
Proof. exact accepted_fits. Qed.
Print Assumptions C40_accepted_fits.
(** ... and what fits, by itself and together with the last batch of the queue
    (if there is one), is accepted. *)
Theorem C40_fits_accepted : forall k s r t1 t2 t3, s_error s = false -> zlen (s_queue s) < k_queue k ->
  61 + c_size rec_codec (stamp 0 (Z.max 0 (wall t3 - wall t2)) r) <= k_request k ->
  (forall b before, rev (s_queue s) = b :: before ->
     mb_raw_size b + c_size rec_codec (stamp (zlen (mb_recs b)) (elapsed b (wall t1)) r) <= k_request k) ->
  exists id off, snd (push k t1 t2 t3 s r) = Accepted id off.
Proof. exact fits_accepted. Qed.
Print Assumptions C40_fits_accepted.
(** The last batch of the queue is never passed over: what does not fit into a
    request together with it is rejected.  This is the finding: the small record
    below is rejected because of the large one in front of it. *)
Theorem C40_crowded_out : forall k s r t1 t2 t3 b before, s_error s = false -> zlen (s_queue s) < k_queue k -> rev (s_queue s) = b :: before ->
  k_request k < mb_raw_size b + c_size rec_codec (stamp (zlen (mb_recs b)) (elapsed b (wall t1)) r) ->
  snd (push k t1 t2 t3 s r) = RecordTooLarge.
Proof. exact crowded_out. Qed.
Print Assumptions C40_crowded_out.
Theorem C40_refuted : exists k T l s os t1 t2 t3, conf_ok k /\ events_ok T (l ++ [Push small t1 t2 t3]) /\ steady (l ++ [Push small t1 t2 t3])
  /\ prun k producer0 l = (s, os) /\ smallest small < smallest big /\ smallest big <= k_request k
  /\ taken l os = [payload_of big] /\ s_error s = false /\ zlen (s_queue s) < k_queue k
  /\ snd (push k t1 t2 t3 s small) = RecordTooLarge /\ exists i o, snd (push k t1 t2 t3 producer0 small) = Accepted i o.
Proof. exact too_large_refuted. Qed.
Print Assumptions C40_refuted.

(** C41.  A key determines the partition, whatever the counter. *)
Theorem C41_keyed : forall hash i c c' x, 0 < i_count i -> exists p, 0 <= p < i_count i
  /\ partition_of hash i c (Some x) = (c, Ok p) /\ partition_of hash i c' (Some x) = (c', Ok p).
Proof. exact keyed_partition. Qed.
Print Assumptions C41_keyed.
Theorem C41_exists : forall hash i c x, 0 < i_count i -> Forall (fun p => 0 <= p < i_count i) (i_avail i) ->
  exists p, snd (partition_of hash i c x) = Ok p /\ 0 <= p < i_count i /\ (x = None -> i_avail i <> [] -> In p (i_avail i)).
Proof. exact chosen_exists. Qed.
Print Assumptions C41_exists.
(** Records without key, between any records with key *)
Theorem C41_fair : forall hash i c keys p, NoDup (i_avail i) -> In p (i_avail i) -> 0 <= c < 2 ^ 32 ->
  let n := zlen (keyless keys (partitions_of hash i c keys)) in let k := zlen (i_avail i) in
  (c + n <= 2 ^ 32 \/ 2 ^ 32 mod k = 0) ->
  n / k <= count_of p (keyless keys (partitions_of hash i c keys)) <= (n + k - 1) / k.
Proof. exact fair. Qed.
Print Assumptions C41_fair.
Example C41_ex : let keys := [None; Some [1]; None; None; Some [1]; None; None] in let i := update_available (Some 4) (fun p => negb (p =? 2)) (mkInfo 0 []) in
  i_avail i = [0; 1; 3] /\ partitions_of zlen i 7 keys = [Ok 1; Ok 1; Ok 3; Ok 0; Ok 1; Ok 1; Ok 3]
  /\ zlen (keyless keys (partitions_of zlen i 7 keys)) = 5.
Proof. vm_compute. auto. Qed.
Theorem C41_available : forall n online i, 0 <= n ->
  i_count (update_available (Some n) online i) = n /\ NoDup (i_avail (update_available (Some n) online i))
  /\ forall p, In p (i_avail (update_available (Some n) online i)) <-> 0 <= p < n /\ online p = true.
Proof. exact available_partitions. Qed.
Print Assumptions C41_available.
Theorem C41_wrap_refuted : exists i c, 0 <= c < 2 ^ 32 /\ i_avail i = [0; 1; 2] /\ forall hash,
  count_of 0 (partitions_of hash i c [None; None; None]) = 2 /\ count_of 2 (partitions_of hash i c [None; None; None]) = 0.
Proof. exact wrap_refuted. Qed.
Print Assumptions C41_wrap_refuted.
