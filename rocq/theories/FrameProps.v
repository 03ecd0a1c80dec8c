(** C07: framing. *)
From Verif Require Import Base WireModel WireSpec RecordModel RecordSpec FrameModel FrameSpec RecordProofs FrameProofs.

(** C07.  Every split of the byte stream into reads gives the same frames and
    the same final state, even for hostile bytes. *)
Theorem C07_split_independent : forall chunks1 chunks2, concat chunks1 = concat chunks2 ->
  receive (Waiting []) chunks1 = receive (Waiting []) chunks2.
Proof. exact receive_split_independent. Qed.
Print Assumptions C07_split_independent.

(** C07.  The receiver sees exactly the frames that were completely sent, in
    order, and keeps the beginning of the next one. *)
Theorem C07_frames_arrive : forall fs p chunks, Forall frame_ok fs -> partial_frame p ->
  concat chunks = flat_map framed fs ++ p -> receive (Waiting []) chunks = (fs, Waiting p).
Proof. exact frames_arrive. Qed.
Print Assumptions C07_frames_arrive.
Example C07_ex : Forall frame_ok [[1; 2]; []; [3]] /\ partial_frame [0; 0; 0; 9; 7]
  /\ concat [[0; 0]; [0; 2; 1; 2; 0; 0; 0]; [0; 0; 0; 0; 1; 3; 0; 0; 0; 9; 7]] = flat_map framed [[1; 2]; []; [3]] ++ [0; 0; 0; 9; 7].
Proof.
  split; [repeat constructor; (unfold is_byte; lia) || (vm_compute; reflexivity)|]. split; [|vm_compute; reflexivity].
  exists [7; 0; 0; 0; 0; 0; 0; 0; 0], 5.
  split; [split; [repeat constructor; unfold is_byte; lia|vm_compute; reflexivity]|].
  split; [vm_compute; split; congruence|vm_compute; reflexivity].
Qed.

(** C07.  Messages written by the frame encoder arrive, for every message type
    whose announced size is exact (C02 gives this for every composite type). *)
Theorem C07_messages_arrive : forall A (c : codec A) (ok : A -> Prop) l chunks,
  size_exact c ok -> emits_bytes c ok ->
  Forall (fun a => ok a /\ zlen (c_enc c a) < 2 ^ 31 - 4) l ->
  concat chunks = flat_map (frame_enc c) l -> receive (Waiting []) chunks = (map (c_enc c) l, Waiting []).
Proof. exact @values_arrive. Qed.
Print Assumptions C07_messages_arrive.
Example C07_messages_ex : size_exact rec_codec rec_ok /\ emits_bytes rec_codec rec_ok
  /\ Forall (fun a => rec_ok a /\ zlen (c_enc rec_codec a) < 2 ^ 31 - 4) [demo_rec 0 97; demo_rec 1 98].
Proof.
  split; [apply rec_lawful|]. split; [apply rec_lawful|].
  pose proof (proj1 demo_recs_ok) as H. inversion H as [|a l H1 H2]; subst. inversion H2; subst.
  constructor; [split; [assumption|vm_compute; reflexivity]|].
  constructor; [split; [assumption|vm_compute; reflexivity]|constructor].
Qed.

(** C07, findings.  A length prefix crashes the receiver exactly when it lies
    in -4..-1; other impossible lengths make it wait for ever. *)
Theorem C07_hostile_length_refuted : exists chunks, Forall is_bytes chunks /\ receive (Waiting []) chunks = ([], Crashed).
Proof. exact hostile_refuted. Qed.
Print Assumptions C07_hostile_length_refuted.
Theorem C07_crash_exactly : forall len rest, in_s 32 len -> is_bytes rest -> zlen rest < 2 ^ 31 ->
  (frame_dec (be_enc 4 len ++ rest) = Crash <-> -4 <= len < 0).
Proof. exact hostile_exact. Qed.
Print Assumptions C07_crash_exactly.
Theorem C07_stall : forall len rest, in_s 32 len -> zlen rest < 2 ^ 31 -> (len < -4 \/ 2 ^ 31 - 4 <= len) ->
  frame_dec (be_enc 4 len ++ rest) = More.
Proof. exact hostile_stall. Qed.
Print Assumptions C07_stall.

(** C07 with C05: a message containing a batch with a schema is cut short. *)
Theorem C07_schema_batch_refuted : exists b chunks fs c, mem_batch_ok b
  /\ concat chunks = frame_enc (batch_codec memory_codec []) b
  /\ receive (Waiting []) chunks = (fs, c) /\ fs <> [batch_enc memory_codec b].
Proof. exact schema_batch_breaks_refuted. Qed.
Print Assumptions C07_schema_batch_refuted.
