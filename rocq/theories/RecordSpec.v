(** Which records and batches the wire is expected to carry, and what it means
    that a batch arrived. *)
From Verif Require Import RecordModel WireSpec.

Definition payload_ok (s : bytes) : Prop := is_bytes s /\ zlen s < 2 ^ 31.

Definition rec_ok (r : rec) : Prop :=
  in_s 8 (r_attr r) /\ in_s 32 (r_ts r) /\ in_s 32 (r_off r) /\ in_s 32 (r_headers r)
  /\ payload_ok (r_val r) /\ match r_key r with Some k => payload_ok k | None => True end
  /\ zlen (rec_body r) < 2 ^ 31.

Definition header_ok (h : bheader) : Prop :=
  in_s 32 (h_epoch h) /\ in_s 8 (h_magic h) /\ in_s 16 (h_attr h) /\ in_s 32 (h_last_delta h)
  /\ in_s 64 (h_first_ts h) /\ in_s 64 (h_max_ts h) /\ in_s 64 (h_pid h)
  /\ in_s 16 (h_pepoch h) /\ in_s 32 (h_seq h).

Definition records_ok (l : list rec) : Prop := Forall rec_ok l /\ zlen l < 2 ^ 31.

(** [size] is the number of bytes of the encoded records. *)
Definition batch_ok {R} (oks : R -> Prop) (size : R -> Z) (b : batch R) : Prop :=
  in_s 64 (b_base b) /\ in_u 32 (b_schema b) /\ header_ok (b_hdr b) /\ oks (b_recs b)
  /\ size (b_recs b) < 2 ^ 31 - 61.

Definition mem_batch_ok : batch (list rec) -> Prop := batch_ok records_ok (fun l => zlen (c_enc memory_codec l)).
Definition raw_batch_ok : batch bytes -> Prop := batch_ok is_bytes zlen.

(** Two headers agree on everything but the checksum. *)
Definition same_header (h h' : bheader) : Prop :=
  h_epoch h' = h_epoch h /\ h_magic h' = h_magic h /\ h_attr h' = h_attr h
  /\ h_last_delta h' = h_last_delta h /\ h_first_ts h' = h_first_ts h /\ h_max_ts h' = h_max_ts h
  /\ h_pid h' = h_pid h /\ h_pepoch h' = h_pepoch h /\ h_seq h' = h_seq h.

(** [b'] is what arrived for [b], except possibly for the records: the same
    batch; the schema id only if the batch announces one; the checksum is the
    CRC-32C of what follows the checksum field, and the length field is the
    number of bytes that follow it. *)
Definition arrived_head {R} (encoded : bytes) (b b' : batch R) : Prop :=
  b_base b' = b_base b /\ same_header (b_hdr b) (b_hdr b')
  /\ (has_schema (b_hdr b) = true -> b_schema b' = b_schema b)
  /\ h_crc (b_hdr b') = crc32c (zdrop 21 encoded)
  /\ b_len b' = zlen encoded - 12.
Definition arrived {R} (encoded : bytes) (b b' : batch R) : Prop :=
  arrived_head encoded b b' /\ b_recs b' = b_recs b.

Fixpoint prefix {A} (a b : list A) : Prop :=
  match a, b with
  | [], _ => True
  | x :: a', y :: b' => x = y /\ prefix a' b'
  | _ :: _, [] => False
  end.

(** The offset in the log of every record of a batch. *)
Definition log_records (b : batch (list rec)) : list (Z * rec) :=
  map (fun r => (b_base b + r_off r, r)) (b_recs b).

(** The offset deltas are those of a batch nothing was removed from. *)
Definition numbered (l : list rec) : Prop := map r_off l = map Z.of_nat (seq 0 (length l)).

(** All batches of a list converted, or the first error. *)
Fixpoint all_ok {A B} (f : A -> res B) (l : list A) : res (list B) :=
  match l with
  | [] => Ok []
  | a :: t => let* b := f a in let* r := all_ok f t in Ok (b :: r)
  end.
