(** What the framing layer is expected to do. *)
From Verif Require Import FrameModel.

(** The frame carrying payload [f]: its length in 4 bytes, then the payload. *)
Definition framed (f : bytes) : bytes := be_enc 4 (zlen f) ++ f.
Definition frame_ok (f : bytes) : Prop := is_bytes f /\ zlen f < 2 ^ 31 - 4.

(** A strict beginning of one frame: what may be in flight at any moment. *)
Definition partial_frame (p : bytes) : Prop :=
  exists f k, frame_ok f /\ 0 <= k < zlen (framed f) /\ p = ztake k (framed f).
