From Verif Require Import ReplicationModel ReplicationSpec ReplicationClaims FileClaims FileCut FileProofs.
From Verif Require Import WireModel WireSpec RecordModel RecordSpec FileModel FileSpec FrameModel FrameSpec.

(** C88.  Records are sent from the files they are stored in, next to the rest of
    a message.  What is written to the connection is the message with the same
    records in memory, in one frame. *)
Theorem C88_stream : forall E (ec : Z -> codec E) e0 eok, faithful ec eok -> forall st f v corr x, 0 <= v ->
  stream_ok eok (fun s => on_disk st s (f s)) x -> zlen (send_stream ec e0 st v corr x) < 2 ^ 31 ->
  send_stream ec e0 st v corr x = framed (c_enc (resp_codec (stream_codec ec e0 v [] set_codec)) (corr, stream_map f x)).
Proof. exact @stream_sent. Qed.
Print Assumptions C88_stream.
Theorem C88_fetch : forall E (ec : Z -> codec E) e0 eok, faithful ec eok -> forall st f v corr x, 0 <= v ->
  fetch_ok eok (fun s => on_disk st s (f s)) x -> zlen (send_fetch ec e0 st v corr x) < 2 ^ 31 ->
  send_fetch ec e0 st v corr x = framed (c_enc (resp_codec (fetch_codec ec e0 v [] set_codec)) (corr, fetch_map f x)).
Proof. exact @fetch_sent. Qed.
Print Assumptions C88_fetch.
Theorem C88_sync : forall E (ec : Z -> codec E) e0 eok, faithful ec eok -> forall st f h x, rheader_ok h ->
  sync_ok eok (fun s => on_disk st s (f s)) x -> zlen (send_sync ec e0 st h x) < 2 ^ 31 ->
  send_sync ec e0 st h x
  = framed (request_enc (fun v => sync_codec ec e0 v [] set_codec) (rh_version h) h (map (ptopic_map f) x)).
Proof. exact @sync_sent. Qed.
Print Assumptions C88_sync.
Theorem C88_mirror : forall st f h x, rheader_ok h ->
  mirror_ok (fun s => on_disk st s (f s)) x -> zlen (send_mirror st h x) < 2 ^ 31 ->
  send_mirror st h x = framed (request_enc (fun v => mirror_codec v [] set_codec) (rh_version h) h (mirror_map f x)).
Proof. exact mirror_sent. Qed.
Print Assumptions C88_mirror.
Example C88_ex : faithful tags (in_s 16)
  /\ stream_ok (in_s 16) (fun s => on_disk ex_st s (ex_f s)) ex_stream /\ zlen (send_stream tags 0 ex_st 10 7 ex_stream) < 2 ^ 31
  /\ fetch_ok (in_s 16) (fun s => on_disk ex_st s (ex_f s)) ex_fetch /\ zlen (send_fetch tags 0 ex_st 10 7 ex_fetch) < 2 ^ 31
  /\ rheader_ok cut_h
  /\ sync_ok (in_s 16) (fun s => on_disk ex_st s (ex_f s)) (sync_of ex_reps) /\ zlen (send_sync tags 0 ex_st cut_h (sync_of ex_reps)) < 2 ^ 31
  /\ mirror_ok (fun s => on_disk ex_st s (ex_f s)) ex_mirror /\ zlen (send_mirror ex_st cut_h ex_mirror) < 2 ^ 31.
Proof. exact ex_sends. Qed.

(** Responses of a stream, one after the other and split in any way: each arrives
    with the batches that are in its slice, whatever the slice holds. *)
Theorem C88_stream_arrives : forall E (ec : Z -> codec E) e0 eok, faithful ec eok ->
  forall v (l : list (files * (Z * stream_resp (E := E) fslice))) chunks, 0 <= v ->
  Forall (fun m => in_s 32 (fst (snd m)) /\ stream_ok eok (held (fst m)) (snd (snd m))
                   /\ zlen (send_stream ec e0 (fst m) v (fst (snd m)) (snd (snd m))) < 2 ^ 31) l ->
  concat chunks = flat_map (fun m => send_stream ec e0 (fst m) v (fst (snd m)) (snd (snd m))) l ->
  exists fs, receive (Waiting []) chunks = (fs, Waiting [])
    /\ Forall2 (fun m fr => exists unread, c_dec (resp_codec (stream_codec ec e0 v [] set_codec)) fr
          = Ok ((fst (snd m), stream_seen v (stream_map (fun s => decoded (contents (fst m) s)) (snd (snd m)))), unread)) l fs.
Proof. exact @streams_arrive. Qed.
Print Assumptions C88_stream_arrives.
Theorem C88_fetch_arrives : forall E (ec : Z -> codec E) e0 eok, faithful ec eok -> forall st v corr x, 0 <= v -> in_s 32 corr ->
  fetch_ok eok (fun s => held st s /\ clean_slice st s) x -> zlen (send_fetch ec e0 st v corr x) < 2 ^ 31 ->
  exists m, send_fetch ec e0 st v corr x = framed m /\ is_bytes m
    /\ c_dec (resp_codec (fetch_codec ec e0 v [] set_codec)) m
       = Ok ((corr, fetch_seen v (fetch_map (fun s => decoded (contents st s)) x)), []).
Proof. exact @fetch_arrives. Qed.
Print Assumptions C88_fetch_arrives.
Theorem C88_mirror_arrives : forall st h x, rheader_ok h -> mirror_ok (held st) x -> zlen (send_mirror st h x) < 2 ^ 31 ->
  exists m unread, send_mirror st h x = framed m /\ is_bytes m
    /\ request_dec (fun v => mirror_codec v [] set_codec) m = Ok ((h, mirror_map (fun s => decoded (contents st s)) x), unread).
Proof. exact mirror_arrives. Qed.
Print Assumptions C88_mirror_arrives.
Example C88_arrives_ex : Forall (fun m => in_s 32 (fst (snd m)) /\ stream_ok (in_s 16) (held (fst m)) (snd (snd m))
                   /\ zlen (send_stream tags 0 (fst m) 10 (fst (snd m)) (snd (snd m))) < 2 ^ 31) ex_msgs
  /\ fetch_ok (in_s 16) (fun s => held ex_st s /\ clean_slice ex_st s) ex_fetch
  /\ mirror_ok (held ex_st) ex_mirror.
Proof. exact ex_arrives. Qed.
(** The batches in a slice are those that were stored there. *)
Theorem C88_whole : forall st s l, on_disk st s l -> Forall raw_batch_ok l ->
  Forall2 (fun b b' => arrived (batch_enc raw_codec b) b b') l (decoded (contents st s)).
Proof. exact whole_arrives. Qed.
Print Assumptions C88_whole.
Example C88_whole_ex : on_disk ex_st ex_slice ex_l /\ Forall raw_batch_ok ex_l.
Proof. exact (conj ex_disk ex_ok). Qed.

(** In a negative version fewer bytes are announced than follow; if a file is
    shorter than the slice, more. *)
Theorem C88_negative_version_refuted : exists st x frame rest, stream_ok (in_s 16) (held st) x
  /\ frame_dec (send_stream tags 0 st (-1) 7 x) = Frame frame rest /\ rest <> [].
Proof. exact negative_version_refuted. Qed.
Print Assumptions C88_negative_version_refuted.
Theorem C88_short_file_refuted : exists st x, stream_ok (in_s 16) (fun s => 0 <= f_pos s /\ 0 <= f_len s < 2 ^ 31 /\ is_bytes (st (f_fd s))) x
  /\ frame_dec (send_stream tags 0 st 10 7 x) = More.
Proof. exact short_file_refuted. Qed.
Print Assumptions C88_short_file_refuted.

(** C89.  A slice that ends inside a batch: the receiver reads the complete
    batches (and the batch whose records have begun); of a header that is cut
    inside an integer, up to 7 bytes stay unread. *)
Theorem C89_left : forall c l k rest, cut_at c l k -> exists got lo,
  set_dec (be_enc 4 k ++ c ++ rest) = Ok (got, lo ++ rest) /\ got = decoded c
  /\ zlen lo <= 7 /\ (lo = [] <-> clean_cut l k).
Proof. exact cut_left. Qed.
Print Assumptions C89_left.
(** A follower reads every replica of a message if only the last one can end
    that way. *)
Theorem C89_sync : forall E (ec : Z -> codec E) e0 eok, faithful ec eok -> forall st h init last, rheader_ok h ->
  let reps := init ++ [last] in
  Forall (fun r : bytes * ppart (E := E) fslice => str_ok (fst r) /\ ppart_ok eok (held st) (snd r)) reps -> zlen reps < 2 ^ 31 ->
  zlen (send_sync ec e0 st h (sync_of reps)) < 2 ^ 31 ->
  Forall (fun r => clean_slice st (pp_records (snd r))) init ->
  exists m unread, send_sync ec e0 st h (sync_of reps) = framed m /\ is_bytes m
    /\ request_dec (fun v => sync_codec ec e0 v [] set_codec) m
       = Ok ((h, sync_of (map (fun r => (fst r, ppart_map (fun s => decoded (contents st s)) (snd r))) reps)), unread).
Proof. exact @sync_arrives. Qed.
Print Assumptions C89_sync.
Example C89_ex : let st := fun fd => if fd =? 0 then cut_st 0 else ex_st fd in
  let reps := [([97], ex_ppart)] ++ [([98], cut_part)] in
  Forall (fun r => str_ok (fst r) /\ ppart_ok (in_s 16) (held st) (snd r)) reps
  /\ zlen (send_sync tags 0 st cut_h (sync_of reps)) < 2 ^ 31
  /\ Forall (fun r => clean_slice st (pp_records (snd r))) [([97], ex_ppart)]
  /\ exists l k, cut_at (contents st (pp_records cut_part)) l k /\ ~ clean_cut l k.
Proof. exact ex_last. Qed.
(** What a leader sends is a part of its log.  If its limit is not below the
    segment size it never ends that way. *)
Theorem C89_leader_cut : forall p, params_ok p -> forall s i m, reachable p s -> In (ToFollower i m) (k_net s) ->
  exists l k, cut_at (s_records m) l k.
Proof. exact leader_cut. Qed.
Print Assumptions C89_leader_cut.
Theorem C89_leader_clean : forall p, params_ok p -> forall s i m, c_seg_max (p_conf p) <= p_max_bytes p ->
  reachable p s -> In (ToFollower i m) (k_net s) -> exists l k, cut_at (s_records m) l k /\ clean_cut l k.
Proof. exact leader_clean. Qed.
Print Assumptions C89_leader_clean.
Example C89_leader_ex : params_ok (cut_p 86) /\ reachable (cut_p 86) cut_s /\ In (ToFollower 2 cut_m) (k_net cut_s).
Proof. exact (conj (cut_p_ok 86 (Zle_0_pos 86)) (conj cut_reachable cut_in_net)). Qed.
Example C89_leader_clean_ex : params_ok (cut_p 1000) /\ c_seg_max (p_conf (cut_p 1000)) <= p_max_bytes (cut_p 1000)
  /\ reachable (cut_p 1000) (round1 1000 long) /\ exists m, In (ToFollower 2 m) (k_net (round1 1000 long)).
Proof. exact leader_clean_ex. Qed.
(** With a smaller limit the next replica in the message is read from the wrong
    place: here a leader reaches a state in which the follower cannot read the
    message at all. *)
Theorem C89_sync_refuted : exists p s i m st h reps req,
  params_ok p /\ reachable p s /\ In (ToFollower i m) (k_net s)
  /\ rheader_ok h /\ length reps = 2%nat
  /\ Forall (fun r => str_ok (fst r) /\ ppart_ok (in_s 16) (held st) (snd r)
                      /\ pp_error (snd r) = 0 /\ pp_hw (snd r) = s_hw m /\ pp_leo (snd r) = s_leo m
                      /\ contents st (pp_records (snd r)) = s_records m) reps
  /\ send_sync tags 0 st h (sync_of reps) = framed req
  /\ exists e, request_dec (fun v => sync_codec tags 0 v [] set_codec) req = Err e.
Proof. exact cut_sync_refuted. Qed.
Print Assumptions C89_sync_refuted.
(** And a client that fetches two partitions gets, without an error, another
    partition without records for the second one. *)
Theorem C89_fetch_refuted : exists st v corr x t p1 p2 resp q1 q2 more,
  fr_topics x = [mkFtopic t [p1; p2]]
  /\ fetch_ok (in_s 16) (fun s => held st s /\ exists l k, cut_at (contents st s) l k) x
  /\ fp_error p2 = 0 /\ decoded (contents st (fp_records p2)) <> []
  /\ send_fetch tags 0 st v corr x = framed resp
  /\ c_dec (resp_codec (fetch_codec tags 0 v [] set_codec)) resp
     = Ok ((corr, mkFetch (fr_throttle x) (fr_error x) (fr_session x) [mkFtopic t [q1; q2]]), more)
  /\ fp_index q2 <> fp_index p2 /\ fp_records q2 = [] /\ more <> [].
Proof. exact cut_fetch_refuted. Qed.
Print Assumptions C89_fetch_refuted.
