(** C93 to C95: what is sent to an SPU, what it answers, and where a consumer
    that asks over the wire starts. *)
From Verif Require Import FrameModel WireModel WireSpec RecordSpec VersionModel VersionSpec FileModel FileSpec MessageModel
  SpuApiModel SpuApiSpec SpuApiClaims.
From Verif Require MuxModel ConsumerModel ConsumerSpec.

(** C93.  A request reaches the SPU as the same kind of request, with its header
    and the fields of its version. *)
Theorem C93_arrives : forall h r, message_ok (h, r) -> short_timeout r ->
  exists b r', message_enc h r = Ok b /\ serve b = Ok (h, r') /\ arrives (rh_version h) r r'.
Proof. exact message_arrives. Qed.
Print Assumptions C93_arrives.
Example C93_ex : message_ok a_produce /\ short_timeout (snd a_produce) /\ message_ok next_ /\ short_timeout (snd next_)
  /\ nanos (1, 1500000) / 10 ^ 6 * 10 ^ 6 = 1001000000.
Proof. exact (conj (proj1 a_produce_ok) (conj (proj1 (proj2 a_produce_ok)) (conj next_ok (conj Logic.I eq_refl)))). Qed.

(** C93.  It is sent exactly if its timeout is below 2^31 milliseconds. *)
Theorem C93_sent : forall h r, message_ok (h, r) -> ((exists b, message_enc h r = Ok b) <-> short_timeout r).
Proof. exact sent_iff. Qed.
Print Assumptions C93_sent.
Example C93_sent_ex : message_ok slow /\ message_enc (fst slow) (snd slow) = Err InvalidData.
Proof. exact (conj slow_ok eq_refl). Qed.

(** C93.  The size it announces is its size. *)
Theorem C93_size : forall h r b, message_ok (h, r) -> no_schemas r -> message_enc h r = Ok b ->
  zlen b = message_size h r /\ is_bytes b.
Proof. exact message_sized. Qed.
Print Assumptions C93_size.
Example C93_size_ex : message_ok a_produce /\ no_schemas (snd a_produce).
Proof. exact (conj (proj1 a_produce_ok) (proj2 (proj2 a_produce_ok))). Qed.

(** C93.  Requests sent one after the other arrive in order, all of them, however
    the stream is cut into reads. *)
Theorem C93_connection : forall l chunks, connected l -> concat chunks = fst (put_all [] l) ->
  exists frames, receive (Waiting []) chunks = (frames, Waiting [])
  /\ Forall2 (fun m q => fst q = fst m /\ arrives (rh_version (fst m)) (snd m) (snd q)) l (taken frames)
  /\ snd (put_all [] l) = map (fun _ => true) l.
Proof. exact connection. Qed.
Print Assumptions C93_connection.
Example C93_connection_ex : connected [a_produce; next_; a_produce].
Proof. exact a_connection. Qed.

(** C93.  What an SPU refuses: requests of unknown kinds, and negative timeouts. *)
Theorem C93_unknown : forall h rest, rheader_ok h -> ~ In (rh_key h) (map key all_apis) ->
  serve (c_enc (rheader_codec 0) h ++ rest) = Err InvalidData.
Proof. exact unknown_refused. Qed.
Print Assumptions C93_unknown.
Theorem C93_negative_timeout : forall h txn a n rest, rheader_ok h -> rh_key h = key AProduce ->
  match txn with Some s => str_ok s | None => True end -> in_s 16 a -> in_s 32 n -> n < 0 ->
  serve (c_enc (rheader_codec 0) h ++ c_enc (option_codec string_codec) txn ++ be_enc 2 a ++ be_enc 4 n ++ rest) = Err InvalidData.
Proof. exact negative_timeout. Qed.
Print Assumptions C93_negative_timeout.
Example C93_refused_ex : rheader_ok (fst slow) /\ ~ In 1004 (map key all_apis) /\ rh_key (fst slow) = key AProduce /\ in_s 32 (-1).
Proof. split; [exact (proj1 slow_ok)|]. vm_compute. intuition congruence. Qed.

(** C93, finding.  A request that could not be sent leaves its size in the buffer
    of the connection.  The next request is lost: the SPU takes its size for the
    beginning of a produce request ... *)
Theorem C93_after_failure : forall failed m rest chunks frames c,
  message_ok failed -> no_schemas (snd failed) -> ~ short_timeout (snd failed) -> message_size (fst failed) (snd failed) < 2 ^ 31 - 4 ->
  message_ok m -> short_timeout (snd m) -> no_schemas (snd m) -> message_size (fst m) (snd m) < 2 ^ 15 ->
  concat chunks = fst (put_all [] (failed :: m :: rest)) -> receive (Waiting []) chunks = (frames, c) ->
  match taken frames with
  | [] => True
  | q :: _ => rh_key (fst q) = key AProduce /\ rh_version (fst q) = message_size (fst m) (snd m)
  end.
Proof. exact after_failure. Qed.
Print Assumptions C93_after_failure.
Example C93_after_failure_ex : message_ok slow /\ no_schemas (snd slow) /\ ~ short_timeout (snd slow)
  /\ message_size (fst slow) (snd slow) < 2 ^ 31 - 4 /\ message_ok next_ /\ message_size (fst next_) (snd next_) < 2 ^ 15.
Proof.
  split; [exact slow_ok|]. split; [constructor|]. split; [vm_compute; congruence|]. split; [vm_compute; reflexivity|].
  split; [exact next_ok|vm_compute; reflexivity].
Qed.
(** ... and may end the connection, with nothing taken from it. *)
Theorem C93_after_failure_refuted : exists failed m frames c, message_ok failed /\ message_ok m /\ connected [m]
  /\ snd (put_all [] [failed; m]) = [false; true]
  /\ receive (Waiting []) [fst (put_all [] [failed; m])] = (frames, c) /\ taken frames = [].
Proof. exact stray_size. Qed.
Print Assumptions C93_after_failure_refuted.

(** C93.  With an SPU of the same release every request is sent in its newest
    version, and arrives whole. *)
Theorem C93_current_version : forall a, version_for (listed false) a = newest a.
Proof. exact current_version. Qed.
Print Assumptions C93_current_version.
Theorem C93_whole : forall a, In a carried_whole -> forall x rest, fits (req_ty a) x ->
  c_dec (vcodec (version_for (listed false) a) (req_ty a)) (c_enc (vcodec (version_for (listed false) a) (req_ty a)) x ++ rest) = Ok (x, rest).
Proof. exact whole_now. Qed.
Print Assumptions C93_whole.
Example C93_whole_ex : In AFetchConsumers carried_whole /\ fits (req_ty AFetchConsumers) one_consumer.
Proof. split; [cbn; tauto|]. cbn. repeat split; vm_compute; congruence. Qed.

(** Every offset and every session id can be sent; C94: every offset can be answered. *)
Theorem C93_commit_range : forall o n, fits update_consumer_req (UT [UI o; UI n]) <-> in_s 64 o /\ in_u 32 n.
Proof. exact commit_range. Qed.
Print Assumptions C93_commit_range.
Theorem C93_update_range : forall l, zlen l < 2 ^ 31 ->
  fits update_req (UT [UL (map (fun e => UT [UI (fst e); UI (snd e)]) l)]) <-> Forall (fun e => in_s 64 (fst e) /\ in_u 32 (snd e)) l.
Proof. exact update_range. Qed.
Print Assumptions C93_update_range.
Theorem C94_produced_range : forall index err base time start,
  fits produced_partition (UT [UI index; err; UI base; UI time; UI start])
  <-> in_u 32 index /\ fits error_code err /\ in_s 64 base /\ in_s 64 time /\ in_s 64 start.
Proof. exact produced_range. Qed.
Print Assumptions C94_produced_range.
Example C93_range_ex : in_s 64 (2 ^ 63 - 1) /\ ~ in_s 64 (2 ^ 63) /\ in_u 32 (2 ^ 32 - 1) /\ ~ in_u 32 (2 ^ 32) /\ fits error_code no_error.
Proof. unfold in_s, in_u. split; [lia|]. split; [lia|]. split; [lia|]. split; [lia|]. apply VersionClaims.fitsb_fits. vm_compute. reflexivity. Qed.

(** C93, finding.  No SPU lists the requests for stored offsets, so they are sent
    in the newest version of the client whatever the SPU knows; an SPU without the
    filter answers a request for one consumer with all of them. *)
Theorem C93_unlisted : forall table a, a <> AStreamFetch -> Forall (fun e => MuxModel.v_key e <> key a) table ->
  version_for table a = newest a.
Proof. exact unlisted_version. Qed.
Print Assumptions C93_unlisted.
Theorem C93_filter_refuted : forall table, Forall (fun e => MuxModel.v_key e <> key AFetchConsumers) table ->
  exists x rest, fits fetch_consumers_req x /\ x <> UT [none] /\ rest <> [] /\ let v := version_for table AFetchConsumers in
     c_dec (vcodec v (cut (Some 23) fetch_consumers_req)) (c_enc (vcodec v fetch_consumers_req) x) = Ok (UT [], rest).
Proof. exact filter_lost. Qed.
Print Assumptions C93_filter_refuted.
Example C93_unlisted_ex : forall old, Forall (fun e => MuxModel.v_key e <> key AFetchConsumers) (listed old).
Proof. intros old. repeat constructor; cbn; congruence. Qed.

(** C94.  Every error arrives as itself, in every version. *)
Theorem C94_errors : faithful (fun v => vcodec v error_code) (fits error_code).
Proof. exact errors_faithful. Qed.
Print Assumptions C94_errors.
Example C94_errors_ex : fits error_code not_leader /\ fits error_code (chain_error [97; 98]).
Proof. cbn. repeat split; vm_compute; congruence. Qed.

(** C94.  Every answer arrives under its correlation id with the fields of its
    version, and announces its size; today it arrives whole. *)
Theorem C94_answers : forall v a t corr x rest, resp_ty a = Some t -> in_s 32 corr -> fits t x ->
  c_dec (answer_codec v t) (c_enc (answer_codec v t) (corr, x) ++ rest) = Ok ((corr, seen v t x), rest)
  /\ c_size (answer_codec v t) (corr, x) = zlen (c_enc (answer_codec v t) (corr, x)) /\ is_bytes (c_enc (answer_codec v t) (corr, x)).
Proof. exact answer_arrives. Qed.
Print Assumptions C94_answers.
Theorem C94_whole : forall a t, In a answers_whole -> resp_ty a = Some t -> forall corr x rest, in_s 32 corr -> fits t x ->
  c_dec (answer_codec (version_for (listed false) a) t) (c_enc (answer_codec (version_for (listed false) a) t) (corr, x) ++ rest) = Ok ((corr, x), rest).
Proof. exact answer_whole_now. Qed.
Print Assumptions C94_whole.
Example C94_answers_ex : In AUpdateConsumer answers_whole /\ resp_ty AUpdateConsumer = Some update_consumer_resp
  /\ in_s 32 5 /\ fits update_consumer_resp (UT [UI 9; no_session]).
Proof. split; [cbn; tauto|]. split; [reflexivity|]. cbn. repeat split; vm_compute; congruence. Qed.

(** C94.  Of the answer to a produce request, the partition, the error and the
    offset of the first record arrive in every version. *)
Theorem C94_produced : forall v index err base time start, 0 <= v -> fits error_code err ->
  seen v produced_partition (UT [UI index; err; UI base; UI time; UI start])
  = UT [UI index; err; UI base; UI (if 2 <=? v then time else 0); UI (if 5 <=? v then start else 0)].
Proof. exact produced_seen. Qed.
Print Assumptions C94_produced.
Example C94_produced_ex : 0 <= 1 /\ fits error_code not_leader.
Proof. cbn. repeat split; vm_compute; congruence. Qed.

(** C94.  A client finds the answer for its partition, and no other. *)
Theorem C94_found : forall topic index l p, listed_once 0 l -> answered 0 topic index l p -> produced topic index l = Some p.
Proof. exact produced_found. Qed.
Print Assumptions C94_found.
Theorem C94_found_only : forall topic index l p, produced topic index l = Some p -> answered 0 topic index l p.
Proof. exact produced_sound. Qed.
Print Assumptions C94_found_only.
Theorem C94_offsets_found : forall topic index l, (exists p, answered 1 topic index l p) -> find_partition topic index l <> None.
Proof. exact find_partition_found. Qed.
Print Assumptions C94_offsets_found.
Theorem C94_offsets_only : forall topic index l p, find_partition topic index l = Some p -> answered 1 topic index l p.
Proof. exact find_partition_sound. Qed.
Print Assumptions C94_offsets_only.
Example C94_found_ex : let p := UT [UI 1; no_error; UI 5; UI 0; UI 0] in
  let l := [UT [US [97]; UL [UT [UI 0; no_error; UI 4; UI 0; UI 0]; p]]] in
  listed_once 0 l /\ answered 0 [97] 1 l p.
Proof.
  cbv zeta. split; [split; repeat constructor; cbn; intuition congruence|].
  eexists. split; [left; reflexivity|]. split; [reflexivity|]. split; [right; left; reflexivity|reflexivity].
Qed.

(** C94, finding.  The text of an error of 32768 bytes or more is lost, and what
    follows it in the answer is read from the text: the producer is told its
    first bytes as an offset. *)
Theorem C94_text_refuted : forall v index text base time start, 5 <= v -> in_u 32 index -> is_bytes text -> 2 ^ 15 <= zlen text < 2 ^ 16 ->
  exists t s rest, c_dec (vcodec v produced_partition)
    (c_enc (vcodec v produced_partition) (UT [UI index; chain_error text; UI base; UI time; UI start]))
  = Ok (UT [UI index; chain_error []; UI (wrap_s 64 (be_val (firstn 8 text))); UI t; UI s], rest).
Proof. exact text_lost. Qed.
Print Assumptions C94_text_refuted.
Example C94_text_ex : exists text, is_bytes text /\ 2 ^ 15 <= zlen text < 2 ^ 16.
Proof. exact long_text. Qed.

(** C95.  A consumer that asks the leader starts where [resolve] (C42) says, for
    the offsets the leader has: inside the log, at the position named. *)
Theorem C95_asked : forall v s topic index, 0 <= v -> str_ok topic -> in_u 32 index -> led_ok s ->
  fetch_offsets v s topic index = Ok (offset_answer s topic index).
Proof. exact fetched. Qed.
Print Assumptions C95_asked.
Theorem C95_start : forall v s topic index q stored start hw, 0 <= v -> str_ok topic -> in_u 32 index -> led_ok s ->
  s topic index = Some (start, hw) -> ConsumerSpec.log_range start hw -> ConsumerSpec.stored_ok stored -> ConsumerSpec.relative q ->
  exists x, start_asked v s topic index q stored = Ok x /\ start <= x <= hw
    /\ (start <= ConsumerSpec.named q start hw stored <= hw -> x = ConsumerSpec.named q start hw stored).
Proof. exact start_inside. Qed.
Print Assumptions C95_start.
Example C95_ex : led_ok demo_led /\ demo_led [116] 0 = Some (10, 100) /\ ConsumerSpec.log_range 10 100
  /\ start_asked common demo_led [116] 0 (ConsumerModel.FromEnd 7) None = Ok 93.
Proof. split; [exact demo_led_ok|]. split; [reflexivity|]. split; [vm_compute; intuition congruence|vm_compute; reflexivity]. Qed.

(** C95, finding.  An SPU that does not lead the partition answers with an error,
    which the client does not look at: whatever was asked relative to the
    beginning, the end or a stored offset, it goes on at offset 0. *)
Theorem C95_elsewhere_refuted : forall v s topic index q stored, 0 <= v -> str_ok topic -> in_u 32 index -> led_ok s ->
  s topic index = None -> ConsumerSpec.stored_ok stored -> ConsumerSpec.relative q -> start_asked v s topic index q stored = Ok 0.
Proof. exact start_elsewhere. Qed.
Print Assumptions C95_elsewhere_refuted.
Example C95_elsewhere_ex : demo_led [116] 1 = None /\ ConsumerSpec.stored_ok (Some 50) /\ ConsumerSpec.relative (ConsumerModel.FromEnd 7)
  /\ offset_answer demo_led [116] 1 = UT [not_leader; UI 1; UI 0; UI 0].
Proof. split; [reflexivity|]. vm_compute. intuition congruence. Qed.
