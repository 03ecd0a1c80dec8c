(** What it means for an encoding to be faithful, and which values it is
    expected to carry. *)
From Verif Require Import WireModel.

(** Decoding what was encoded gives the value back and leaves what follows. *)
Definition roundtrips {A} (c : codec A) (ok : A -> Prop) : Prop :=
  forall a rest, ok a -> c_dec c (c_enc c a ++ rest) = Ok (a, rest).

(** The announced size is the number of bytes written. *)
Definition size_exact {A} (c : codec A) (ok : A -> Prop) : Prop :=
  forall a, ok a -> c_size c a = zlen (c_enc c a).

(** Every strict prefix of an encoding is reported as an error (of the kind
    [E]); it is never decoded to something else. *)
Definition truncation_yields (E : err -> Prop) {A} (c : codec A) (ok : A -> Prop) : Prop :=
  forall a k, ok a -> (k < length (c_enc c a))%nat ->
    exists e, E e /\ c_dec c (firstn k (c_enc c a)) = Err e.

(** An I/O error value handed to the caller, as opposed to a crash. *)
Definition io_error (e : err) : Prop := e = Eof \/ e = InvalidData.
Definition truncation_detected {A} := @truncation_yields io_error A.

(** What is written are bytes. *)
Definition emits_bytes {A} (c : codec A) (ok : A -> Prop) : Prop :=
  forall a, ok a -> is_bytes (c_enc c a).

(** The values a type can hold in Rust, restricted to the sizes the length
    prefixes are documented to carry. *)
Definition int_ok (k : ikind) (v : Z) : Prop :=
  match k with
  | U8 => in_u 8 v | U16 => in_u 16 v | U32 => in_u 32 v | U64 => in_u 64 v
  | I8 => in_s 8 v | I16 => in_s 16 v | I32 => in_s 32 v | I64 => in_s 64 v
  end.

Definition str_ok (s : bytes) : Prop := utf8_valid s = true /\ zlen s < 2 ^ 15.
Definition buf_ok (s : bytes) : Prop := is_bytes s /\ zlen s < 2 ^ 32.
Definition dur_ok (d : Z * Z) : Prop := in_u 64 (fst d) /\ 0 <= snd d < 10 ^ 9.

Definition key_ok (k : kty) : kval k -> Prop :=
  match k with KInt i => int_ok i | KStr => str_ok end.

Fixpoint ascending {K} (cmp : K -> K -> comparison) (l : list K) : Prop :=
  match l with
  | [] => True
  | k :: l' => (forall k', In k' l' -> cmp k k' = Lt) /\ ascending cmp l'
  end.

Fixpoint val_ok (t : ty) : val t -> Prop :=
  match t with
  | TUnit => fun _ => True
  | TInt k => int_ok k
  | TBool => fun _ => True
  | TVarint => in_s 32
  | TStr => str_ok
  | TBuf => buf_ok
  | TDur => dur_ok
  | TOpt t => fun o => match o with Some a => val_ok t a | None => True end
  | TVec t => fun l => Forall (val_ok t) l /\ zlen l < 2 ^ 31
  | TMap k t => fun m => Forall (fun e => key_ok k (fst e) /\ val_ok t (snd e)) m
                         /\ ascending (kcompare k) (map fst m) /\ zlen m < 2 ^ 16
  | TPair a b => fun p => val_ok a (fst p) /\ val_ok b (snd p)
  end.

(** Types in which no byte buffer occurs. *)
Fixpoint no_buf (t : ty) : bool :=
  match t with
  | TBuf => false
  | TOpt t | TVec t | TMap _ t => no_buf t
  | TPair a b => no_buf a && no_buf b
  | _ => true
  end.

(** The bytes the encoder of a variable-length integer writes when its loop
    terminates. *)
Definition varint_writes (n : Z) (bs : bytes) : Prop :=
  exists fuel, venc_loop fuel (zigzag n) = Some bs.
