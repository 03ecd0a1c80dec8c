(** Model of versioned messages: what the derive macros generate for structs
    with [#[fluvio(min_version = .., max_version = ..)]] fields and for enums.
    Source: crates/fluvio-protocol-derive/src/{ser,de}.rs, ast/prop.rs and the
    primitive encodings of WireModel.

    Simplifications, for the whole file:
    - values are untyped trees ([uval]); which trees a type can hold is said in
      VersionSpec ([fits]);
    - a decoder starts from the default value of the struct, so a field that is
      not read keeps the default written in the schema (the Rust decoder works
      on [&mut self], every caller passes [Default::default()]);
    - a [#[varint]] field ignores its version attributes (ser.rs:113-130,
      de.rs:85-100); here it is an ordinary leaf (no such field has any). *)
From Verif Require Export WireModel.
From Verif Require RecordModel.

(** Values. *)
Inductive uval :=
| UI (n : Z)                        (* integers, also varints *)
| UB (b : bool)
| US (s : bytes)                    (* String, ByteBuf, RecordData *)
| UD (secs nanos : Z)               (* Duration *)
| UO (o : option uval)
| UL (l : list uval)                (* Vec *)
| UM (m : list (uval * uval))       (* BTreeMap, in key order *)
| UT (fields : list uval)           (* struct *)
| UE (tag : Z) (payload : uval).    (* enum *)

Inductive leaf := LInt (k : ikind) | LBool | LVarint | LStr | LBuf | LDur | LData.

(** Types.  A struct is the list of its fields with the versions between which
    they are sent and the value they have otherwise; an enum is the list of
    its variants with their tags.  [since] is the [min_version] attribute of a
    variant: the first version of the protocol that knows it. *)
Inductive vty :=
| VLeaf (l : leaf)
| VOpt (t : vty)
| VVec (t : vty)
| VMap (k : kty) (t : vty)
| VStruct (fs : vfields)
| VEnum (k : ikind) (vs : vvars)
with vfields :=
| FNil
| FCons (min : Z) (max : option Z) (dflt : uval) (t : vty) (rest : vfields)
with vvars :=
| NNil
| NCons (tag since : Z) (t : vty) (rest : vvars).

(** Projections, total: an ill-typed value reads as the default. *)
Definition as_i (x : uval) : Z := match x with UI n => n | _ => 0 end.
Definition as_b (x : uval) : bool := match x with UB b => b | _ => false end.
Definition as_s (x : uval) : bytes := match x with US s => s | _ => [] end.
Definition as_d (x : uval) : Z * Z := match x with UD s n => (s, n) | _ => (0, 0) end.
Definition as_o (x : uval) : option uval := match x with UO o => o | _ => None end.
Definition as_l (x : uval) : list uval := match x with UL l => l | _ => [] end.
Definition as_m (x : uval) : list (uval * uval) := match x with UM m => m | _ => [] end.
Definition as_t (x : uval) : list uval := match x with UT l => l | _ => [] end.
Definition as_tag (x : uval) : Z := match x with UE t _ => t | _ => 0 end.
Definition as_pay (x : uval) : uval := match x with UE _ y => y | _ => UT [] end.

Definition as_key (k : kty) : uval -> kval k :=
  match k with KInt _ => as_i | KStr => as_s end.
Definition of_key (k : kty) : kval k -> uval :=
  match k with KInt _ => UI | KStr => US end.

(** A codec seen through a conversion of its values. *)
Definition via {A B} (inj : A -> B) (prj : B -> A) (c : codec A) : codec B :=
  {| c_enc b := c_enc c (prj b);
     c_dec bs := let* (a, r) := c_dec c bs in Ok (inj a, r);
     c_size b := c_size c (prj b) |}.

Definition leaf_codec (l : leaf) : codec uval :=
  match l with
  | LInt k => via UI as_i (int_codec k)
  | LBool => via UB as_b bool_codec
  | LVarint => via UI as_i varint_codec
  | LStr => via US as_s string_codec
  | LBuf => via US as_s bytebuf_codec
  | LDur => via (fun d => UD (fst d) (snd d)) as_d duration_codec
  | LData => via US as_s RecordModel.record_data_codec
  end.

(** The guard around a field: [if version >= min] or
    [if (min..=max).contains(&version)].  ast/prop.rs:51-95.  Used for
    writing (ser.rs:107-150), for the size (ser.rs:216-256) and for reading
    (de.rs:85-125). *)
Definition in_range (min : Z) (max : option Z) (v : Z) : bool :=
  match max with
  | Some m => (min <=? v) && (v <=? m)
  | None => min <=? v
  end.

(** The derived [Encoder]/[Decoder] at version [v].  Structs: ser.rs:87-300,
    de.rs:63-180.  Enums: the tag as an integer of the representation type,
    then the fields of the variant; neither the attributes of the variant nor
    those of its fields are looked at (ser.rs:302-478, de.rs:182-290).  An
    unknown tag is InvalidData (de.rs:262-269); the encoder of a value with a
    tag that is not in the list cannot be written in Rust. *)
Fixpoint vcodec (v : Z) (t : vty) : codec uval :=
  match t with
  | VLeaf l => leaf_codec l
  | VOpt t => via UO as_o (option_codec (vcodec v t))
  | VVec t => via UL as_l (vec_codec (vcodec v t))
  | VMap k t =>
      via (fun m => UM (map (fun e => (of_key k (fst e), snd e)) m))
          (fun x => map (fun e => (as_key k (fst e), snd e)) (as_m x))
          (map_codec (kcompare k) (kcodec k) (vcodec v t))
  | VStruct fs => via UT as_t (fcodec v fs)
  | VEnum k vs =>
      {| c_enc x := c_enc (int_codec k) (as_tag x)
                    ++ match ncodec v vs (as_tag x) with
                       | Some c => c_enc c (as_pay x)
                       | None => []
                       end;
         c_dec bs := let* (tag, r) := c_dec (int_codec k) bs in
                     match ncodec v vs tag with
                     | Some c => let* (y, r') := c_dec c r in Ok (UE tag y, r')
                     | None => Err InvalidData
                     end;
         c_size x := c_size (int_codec k) (as_tag x)
                     + match ncodec v vs (as_tag x) with
                       | Some c => c_size c (as_pay x)
                       | None => 0
                       end |}
  end
with fcodec (v : Z) (fs : vfields) : codec (list uval) :=
  match fs with
  | FNil => {| c_enc _ := []; c_dec bs := Ok ([], bs); c_size _ := 0 |}
  | FCons min max dflt t rest =>
      {| c_enc xs := (if in_range min max v then c_enc (vcodec v t) (hd dflt xs) else [])
                     ++ c_enc (fcodec v rest) (tl xs);
         c_dec bs := let* (x, r) := (if in_range min max v then c_dec (vcodec v t) bs else Ok (dflt, bs)) in
                     let* (xs, r') := c_dec (fcodec v rest) r in
                     Ok (x :: xs, r');
         c_size xs := (if in_range min max v then c_size (vcodec v t) (hd dflt xs) else 0)
                      + c_size (fcodec v rest) (tl xs) |}
  end
with ncodec (v : Z) (vs : vvars) (tag : Z) : option (codec uval) :=
  match vs with
  | NNil => None
  | NCons tg _ t rest => if tg =? tag then Some (vcodec v t) else ncodec v rest tag
  end.

(** * Releases

    A release of the software is identified by the highest version it speaks:
    [None] is the current one.  Its types are the current ones without the
    fields and variants that were added later: this is what the version
    attributes record.  (A model of the history of the sources, not of code;
    fields that were removed from the sources altogether cannot be seen.) *)
Definition knows (r : option Z) (since : Z) : bool :=
  match r with Some n => since <=? n | None => true end.

(** A value of a type in a release: without the fields added later. *)
Fixpoint trim (r : option Z) (t : vty) (x : uval) : uval :=
  match t with
  | VLeaf _ => x
  | VOpt t => UO (option_map (trim r t) (as_o x))
  | VVec t => UL (map (trim r t) (as_l x))
  | VMap _ t => UM (map (fun e => (fst e, trim r t (snd e))) (as_m x))
  | VStruct fs => UT (ftrim r fs (as_t x))
  | VEnum _ vs => UE (as_tag x) (ntrim r vs (as_tag x) (as_pay x))
  end
with ftrim (r : option Z) (fs : vfields) (xs : list uval) : list uval :=
  match fs with
  | FNil => []
  | FCons min _ dflt t rest =>
      (if knows r min then [trim r t (hd dflt xs)] else []) ++ ftrim r rest (tl xs)
  end
with ntrim (r : option Z) (vs : vvars) (tag : Z) (x : uval) : uval :=
  match vs with
  | NNil => x
  | NCons tg _ t rest => if tg =? tag then trim r t x else ntrim r rest tag x
  end.

(** The type as it is in a release. *)
Fixpoint cut (r : option Z) (t : vty) : vty :=
  match t with
  | VLeaf l => VLeaf l
  | VOpt t => VOpt (cut r t)
  | VVec t => VVec (cut r t)
  | VMap k t => VMap k (cut r t)
  | VStruct fs => VStruct (fcut r fs)
  | VEnum k vs => VEnum k (ncut r vs)
  end
with fcut (r : option Z) (fs : vfields) : vfields :=
  match fs with
  | FNil => FNil
  | FCons min max dflt t rest =>
      if knows r min then FCons min max (trim r t dflt) (cut r t) (fcut r rest)
      else fcut r rest
  end
with ncut (r : option Z) (vs : vvars) : vvars :=
  match vs with
  | NNil => NNil
  | NCons tag since t rest =>
      if knows r since then NCons tag since (cut r t) (ncut r rest) else ncut r rest
  end.
