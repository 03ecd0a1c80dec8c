(** The values the durable high watermark is given. *)
From Verif Require Import CheckpointModel.

(** The high watermarks set *)
Definition values_set (l : list wevent) : list Z :=
  flat_map (fun e => match e with SetTo o => [o] | Run => [] end) l.

(** The value right after opening *)
Definition winit (k : ckpt) (initial : Z) : Z := w_value (open_writer k initial).

Fixpoint nondecreasing (x : Z) (l : list Z) : Prop :=
  match l with [] => True | y :: t => x <= y /\ nondecreasing y t end.
