(** Model of the Fluvio wire encoding of primitive and composite values.
    Source: crates/fluvio-protocol/src/core/{varint,encoder,decoder,bytebuf}.rs

    Simplifications, for the whole file:
    - the destination buffer never runs out of space (it is a growable [Vec]),
      so the [remaining_mut] checks of the encoders never fire;
    - a decoder is a function from the remaining input to a value and the new
      remaining input (the Rust code advances a [Buf] in place);
    - [trace!] calls are dropped;
    - the [version] argument is ignored by all the functions modelled here,
      as it is in the code. *)
From Verif Require Export Base.

(** * Variable-length integers *)

(** [(num << 1) ^ (num >> 31)] on i64.  varint.rs:47 and varint.rs:71.
    [<< 1] drops the top bit (i64), [>> 31] is arithmetic. *)
Definition zigzag (num : Z) : Z :=
  Z.lxor (wrap_s 64 (Z.shiftl num 1)) (Z.shiftr num 31).

(** The encoding loop, varint.rs:49-66.  [v & 0xffffff80] only looks at bits
    7..31 of the 64-bit [v].  The Rust loop is unbounded; running out of fuel
    is reported as [None]. *)
Fixpoint venc_loop (fuel : nat) (v : Z) : option bytes :=
  match fuel with
  | O => None
  | S f =>
      if Z.land v 0xffffff80 =? 0
      then Some [Z.land v 0xff]
      else option_map (cons (Z.lor (Z.land v 0x7f) 0x80)) (venc_loop f (Z.shiftr v 7))
  end.

(** Ten rounds are enough for every non-negative i64 (see WireProofs); a
    negative [v] never leaves the Rust loop. *)
Definition varint_fuel : nat := 10.

(** [variant_encode], varint.rs:43-68. [None]: the loop does not terminate. *)
Definition varint_encode_opt (num : Z) : option bytes := venc_loop varint_fuel (zigzag num).

(** Total version used inside larger encoders (the theorems there assume the
    32-bit range, where it never is [None]). *)
Definition varint_encode (num : Z) : bytes := option_get [] (varint_encode_opt num).

(** [variant_size], varint.rs:70-80 *)
Fixpoint vsize_loop (fuel : nat) (v : Z) (acc : Z) : option Z :=
  match fuel with
  | O => None
  | S f =>
      if Z.land v 0xffffff80 =? 0 then Some acc
      else vsize_loop f (Z.shiftr v 7) (acc + 1)
  end.
Definition varint_size (num : Z) : Z := option_get 0 (vsize_loop varint_fuel (zigzag num) 1).

(** [varint_decode], varint.rs:13-40.  The shift amount is masked to 6 bits, as
    in a release build (a build with overflow checks panics from 64 on). *)
Fixpoint vdec_loop (bs : bytes) (num shift : Z) : res (Z * bytes) :=
  match bs with
  | [] => Err Eof
  | b :: rest =>
      let num' := Z.lor num (wrap_s 64 (Z.shiftl (Z.land b 0x7f) (shift mod 64))) in
      if Z.land b 0x80 =? 0
      then Ok (Z.lxor (Z.shiftr num' 1) (- (Z.land num' 1)), rest)
      else vdec_loop rest num' (shift + 7)
  end.
Definition varint_decode (bs : bytes) : res (Z * bytes) := vdec_loop bs 0 0.

(** * Codecs *)

Record codec (A : Type) := Codec {
  c_enc  : A -> bytes;               (* Encoder::encode *)
  c_dec  : bytes -> res (A * bytes); (* Decoder::decode *)
  c_size : A -> Z;                   (* Encoder::write_size *)
}.
Arguments Codec {A}.
Arguments c_enc {A}.
Arguments c_dec {A}.
Arguments c_size {A}.

(** ** Fixed-width big-endian integers.  encoder.rs:176-297, 319-357
       ([put_i8] .. [put_u64]), decoder.rs:158-248, 264-292. *)

Fixpoint be_enc (n : nat) (v : Z) : bytes :=
  match n with
  | O => []
  | S m => (v / 256 ^ Z.of_nat m) mod 256 :: be_enc m v
  end.

Definition be_val (bs : bytes) : Z := fold_left (fun a b => a * 256 + b) bs 0.

Definition take_bytes (n : nat) (bs : bytes) : res (bytes * bytes) :=
  if (length bs <? n)%nat then Err Eof else Ok (firstn n bs, skipn n bs).

Definition u_codec (n : nat) : codec Z :=
  {| c_enc v := be_enc n v;
     c_dec bs := let* (h, t) := take_bytes n bs in Ok (be_val h, t);
     c_size _ := Z.of_nat n |}.

Definition s_codec (n : nat) : codec Z :=
  {| c_enc v := be_enc n v;
     c_dec bs := let* (h, t) := take_bytes n bs in Ok (wrap_s (8 * Z.of_nat n) (be_val h), t);
     c_size _ := Z.of_nat n |}.

Definition u8_codec := u_codec 1.
Definition u16_codec := u_codec 2.
Definition u32_codec := u_codec 4.
Definition u64_codec := u_codec 8.
Definition i8_codec := s_codec 1.
Definition i16_codec := s_codec 2.
Definition i32_codec := s_codec 4.
Definition i64_codec := s_codec 8.

(** ** bool.  encoder.rs:152-174, decoder.rs:133-156 *)
Definition bool_codec : codec bool :=
  {| c_enc (b : bool) := [if b then 1 else 0];
     c_dec bs := match bs with
                 | [] => Err Eof
                 | v :: rest => if v =? 0 then Ok (false, rest)
                                else if v =? 1 then Ok (true, rest) else Err InvalidData
                 end;
     c_size _ := 1 |}.

(** ** i64 as varint.  encoder.rs:359-371, decoder.rs:329-338 *)
Definition varint_codec : codec Z :=
  {| c_enc := varint_encode; c_dec := varint_decode; c_size := varint_size |}.

(** ** Option.  encoder.rs:79-102, decoder.rs:77-96 *)
Definition option_codec {A} (c : codec A) : codec (option A) :=
  {| c_enc o := match o with
                | Some a => c_enc bool_codec true ++ c_enc c a
                | None => c_enc bool_codec false
                end;
     c_dec bs := let* (some, r) := c_dec bool_codec bs in
                 if (some : bool) then let* (a, r') := c_dec c r in Ok (Some a, r')
                 else Ok (None, r);
     c_size o := match o with Some a => 1 + c_size c a | None => 1 end |}.

(** ** Vec.  encoder.rs:49-77, decoder.rs:39-75.
       The length is written as [len as u32] and read back as i32; a length
       below 1 decodes to the empty vector. *)
Definition vec_enc {A} (c : codec A) (l : list A) : bytes :=
  be_enc 4 (wrap_u 32 (zlen l)) ++ flat_map (c_enc c) l.

Fixpoint dec_times {A} (dec : bytes -> res (A * bytes)) (n : nat) (bs : bytes) : res (list A * bytes) :=
  match n with
  | O => Ok ([], bs)
  | S m => let* (a, r) := dec bs in let* (l, r') := dec_times dec m r in Ok (a :: l, r')
  end.

Definition vec_dec {A} (c : codec A) (bs : bytes) : res (list A * bytes) :=
  let* (len, r) := c_dec i32_codec bs in
  if len <? 1 then Ok ([], r) else dec_times (c_dec c) (Z.to_nat len) r.

Definition vec_size {A} (c : codec A) (l : list A) : Z :=
  fold_left (fun s a => s + c_size c a) l 4.

Definition vec_codec {A} (c : codec A) : codec (list A) :=
  {| c_enc := vec_enc c; c_dec := vec_dec c; c_size := vec_size c |}.

(** ** BTreeMap.  encoder.rs:120-150, decoder.rs:107-131.
       A map is its list of entries in ascending key order, which is the order
       in which BTreeMap iterates.  The count is written as [len as u16]; the
       decoder inserts the entries one by one. *)
Fixpoint map_insert {K V} (cmp : K -> K -> comparison) (k : K) (v : V) (m : list (K * V)) : list (K * V) :=
  match m with
  | [] => [(k, v)]
  | (k', v') :: m' =>
      match cmp k k' with
      | Lt => (k, v) :: m
      | Eq => (k, v) :: m'
      | Gt => (k', v') :: map_insert cmp k v m'
      end
  end.

Definition pair_codec {A B} (ca : codec A) (cb : codec B) : codec (A * B) :=
  {| c_enc p := c_enc ca (fst p) ++ c_enc cb (snd p);
     c_dec bs := let* (a, r) := c_dec ca bs in let* (b, r') := c_dec cb r in Ok ((a, b), r');
     c_size p := c_size ca (fst p) + c_size cb (snd p) |}.

Definition map_codec {K V} (cmp : K -> K -> comparison) (ck : codec K) (cv : codec V) : codec (list (K * V)) :=
  {| c_enc m := be_enc 2 (wrap_u 16 (zlen m)) ++ flat_map (c_enc (pair_codec ck cv)) m;
     c_dec bs := let* (len, r) := c_dec u16_codec bs in
                 let* (es, r') := dec_times (c_dec (pair_codec ck cv)) (Z.to_nat len) r in
                 Ok (fold_left (fun m e => map_insert cmp (fst e) (snd e) m) es [], r');
     c_size m := fold_left (fun s e => s + c_size ck (fst e) + c_size cv (snd e)) m 2 |}.

(** ** String.  encoder.rs:414-435, decoder.rs:340-373.
       A string is its UTF-8 bytes.  [utf8_valid] is the validity check that
       [read_to_string] performs (Rust std): well-formed UTF-8 as in the
       Unicode standard table 3-7. *)
Definition cont (b : Z) : bool := (0x80 <=? b) && (b <=? 0xBF).
Definition rng (lo b hi : Z) : bool := (lo <=? b) && (b <=? hi).

Fixpoint utf8_valid (bs : bytes) : bool :=
  match bs with
  | [] => true
  | b0 :: r =>
      if rng 0 b0 0x7F then utf8_valid r
      else if rng 0xC2 b0 0xDF then
        match r with b1 :: r1 => cont b1 && utf8_valid r1 | _ => false end
      else if rng 0xE0 b0 0xEF then
        match r with
        | b1 :: b2 :: r2 =>
            (if b0 =? 0xE0 then rng 0xA0 b1 0xBF
             else if b0 =? 0xED then rng 0x80 b1 0x9F else cont b1)
            && cont b2 && utf8_valid r2
        | _ => false
        end
      else if rng 0xF0 b0 0xF4 then
        match r with
        | b1 :: b2 :: b3 :: r3 =>
            (if b0 =? 0xF0 then rng 0x90 b1 0xBF
             else if b0 =? 0xF4 then rng 0x80 b1 0x8F else cont b1)
            && cont b2 && cont b3 && utf8_valid r3
        | _ => false
        end
      else false
  end.

(** The length is written with [put_u16(len as u16)] and read with [get_i16];
    a length of zero or less leaves the default (empty) string and consumes
    nothing more (decoder.rs:364-367). *)
Definition string_dec (bs : bytes) : res (bytes * bytes) :=
  let* (len, r) := c_dec i16_codec bs in
  if len <=? 0 then Ok ([], r)
  else
    let s := firstn (Z.to_nat len) r in
    if negb (utf8_valid s) then Err InvalidData
    else if zlen s =? len then Ok (s, skipn (Z.to_nat len) r) else Err Eof.

Definition string_codec : codec bytes :=
  {| c_enc s := be_enc 2 (wrap_u 16 (zlen s)) ++ s;
     c_dec := string_dec;
     c_size s := 2 + zlen s |}.

(** ** ByteBuf.  bytebuf.rs:44-87.  [copy_to_bytes] panics when fewer than
       [len] bytes remain (bytes crate). *)
Definition bytebuf_codec : codec bytes :=
  {| c_enc s := be_enc 4 (wrap_u 32 (zlen s)) ++ s;
     c_dec bs := let* (len, r) := c_dec u32_codec bs in
                 if len <? 1 then Ok ([], r)
                 else if zlen r <? len then Err Panic
                 else Ok (firstn (Z.to_nat len) r, skipn (Z.to_nat len) r);
     c_size s := 4 + zlen s |}.

(** ** Duration.  encoder.rs:393-412, decoder.rs:308-327.  A duration is
       (seconds, nanoseconds); [Duration::new] carries whole seconds out of the
       nanoseconds and panics if the seconds overflow u64. *)
Definition duration_new (secs nanos : Z) : res (Z * Z) :=
  let s := secs + nanos / 1000000000 in
  if 2 ^ 64 <=? s then Err Panic else Ok (s, nanos mod 1000000000).

Definition duration_codec : codec (Z * Z) :=
  {| c_enc d := be_enc 8 (fst d) ++ be_enc 4 (snd d);
     c_dec bs := let* (h, t) := take_bytes 12 bs in
                 let* d := duration_new (be_val (firstn 8 h)) (be_val (skipn 8 h)) in
                 Ok (d, t);
     c_size _ := 12 |}.

(** ** A universe of composite types, so that "every type built from these"
       is a quantifier.  A struct is its fields in declaration order (what the
       derive macro generates, fluvio-protocol-derive/src/{ser,de}.rs), that is
       nested pairs. *)
Inductive ikind := U8 | U16 | U32 | U64 | I8 | I16 | I32 | I64.
Inductive kty := KInt (k : ikind) | KStr.
Inductive ty :=
| TUnit | TInt (k : ikind) | TBool | TVarint | TStr | TBuf | TDur
| TOpt (t : ty) | TVec (t : ty) | TMap (k : kty) (t : ty) | TPair (a b : ty).

Definition kval (k : kty) : Type := match k with KInt _ => Z | KStr => bytes end.
Fixpoint val (t : ty) : Type :=
  match t with
  | TUnit => unit | TInt _ => Z | TBool => bool | TVarint => Z
  | TStr => bytes | TBuf => bytes | TDur => (Z * Z)%type
  | TOpt t => option (val t) | TVec t => list (val t)
  | TMap k t => list (kval k * val t)%type
  | TPair a b => (val a * val b)%type
  end.

Definition int_codec (k : ikind) : codec Z :=
  match k with
  | U8 => u8_codec | U16 => u16_codec | U32 => u32_codec | U64 => u64_codec
  | I8 => i8_codec | I16 => i16_codec | I32 => i32_codec | I64 => i64_codec
  end.

(** Key order: integers numerically, strings bytewise (Rust [Ord] for [String]). *)
Fixpoint bytes_compare (a b : bytes) : comparison :=
  match a, b with
  | [], [] => Eq
  | [], _ => Lt
  | _, [] => Gt
  | x :: a', y :: b' => match x ?= y with Eq => bytes_compare a' b' | c => c end
  end.
Definition kcompare (k : kty) : kval k -> kval k -> comparison :=
  match k with KInt _ => Z.compare | KStr => bytes_compare end.
Definition kcodec (k : kty) : codec (kval k) :=
  match k with KInt i => int_codec i | KStr => string_codec end.

Definition unit_codec : codec unit :=
  {| c_enc _ := []; c_dec bs := Ok (tt, bs); c_size _ := 0 |}.

Fixpoint codec_of (t : ty) : codec (val t) :=
  match t with
  | TUnit => unit_codec
  | TInt k => int_codec k
  | TBool => bool_codec
  | TVarint => varint_codec
  | TStr => string_codec
  | TBuf => bytebuf_codec
  | TDur => duration_codec
  | TOpt t => option_codec (codec_of t)
  | TVec t => vec_codec (codec_of t)
  | TMap k t => map_codec (kcompare k) (kcodec k) (codec_of t)
  | TPair a b => pair_codec (codec_of a) (codec_of b)
  end.
