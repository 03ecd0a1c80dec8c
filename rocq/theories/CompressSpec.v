(** What compression is supposed to leave unchanged. *)
From Verif Require Import WireSpec RecordSpec StorageSpec CompressModel.

(** What was compressed with one of the algorithms is uncompressed to the same
    bytes. *)
Definition sound (K : algorithms) : Prop :=
  forall a s z, 1 <= a <= 4 -> is_bytes s -> pack K a s = Ok z -> is_bytes z /\ unpack K a z = Ok s.

(** [p] is the batch [m] with its records compressed as its header says. *)
Definition packed (K : algorithms) (m : batch (list rec)) (p : batch bytes) : Prop := compress_batch K m = Ok p.

Definition codec_of {R} (b : batch R) : res Z := get_compression (b_hdr b).
(** A batch names the algorithm the topic asks for ([None]: any). *)
Definition named (topic : option Z) (b : batch bytes) : Prop :=
  exists a, codec_of b = Ok a /\ match topic with None => True | Some t => a = t end.

(** A simple pair of algorithms, for examples: a byte in front. *)
Definition marking : algorithms :=
  mkAlgs (fun a s => Ok (a :: s)) (fun a z => match z with x :: s => if x =? a then Ok s else Err InvalidData | [] => Err Eof end).
