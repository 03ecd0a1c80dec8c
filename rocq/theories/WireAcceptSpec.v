(** What the decoders accept. *)
From Verif Require Import Base WireModel WireSpec.

(** The only bytes that decode to a value are the ones its encoder writes. *)
Definition canonical {A} (c : codec A) : Prop :=
  forall bs v rest, is_bytes bs -> c_dec c bs = Ok (v, rest) -> bs = c_enc c v ++ rest.

(** Types made of fixed-width integers, booleans, byte buffers, options and
    tuples (structs). *)
Fixpoint plain (t : ty) : bool :=
  match t with
  | TUnit | TInt _ | TBool | TBuf => true
  | TOpt t => plain t
  | TPair a b => plain a && plain b
  | _ => false
  end.

(** Types in which no variable-length integer occurs. *)
Fixpoint no_varint (t : ty) : bool :=
  match t with
  | TVarint => false
  | TOpt t | TVec t | TMap _ t => no_varint t
  | TPair a b => no_varint a && no_varint b
  | _ => true
  end.

(** The bytes of a map sent with these entries, in this order: a two-byte count
    and then the entries.  The sender need not be a map: a key may come twice. *)
Definition sent_map (k : kty) (t : ty) (es : list (kval k * val t)) : bytes :=
  be_enc 2 (zlen es) ++ flat_map (fun e => c_enc (kcodec k) (fst e) ++ c_enc (codec_of t) (snd e)) es.

(** [v] is the value of the last entry with key [x]. *)
Definition last_for {K V} (x : K) (v : V) (es : list (K * V)) : Prop :=
  exists before after, es = before ++ (x, v) :: after /\ ~ In x (map fst after).
