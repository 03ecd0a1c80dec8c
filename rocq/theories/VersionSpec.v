(** What users of the versioned protocol rely on: a message arrives with the
    fields its version carries, and releases that agree on a version
    understand each other. *)
From Verif Require Import VersionModel WireSpec.
From Verif Require RecordSpec.

(** ** The values of a type *)

Definition leaf_ok (l : leaf) (x : uval) : Prop :=
  match l, x with
  | LInt k, UI n => int_ok k n
  | LBool, UB _ => True
  | LVarint, UI n => in_s 32 n
  | LStr, US s => str_ok s
  | LBuf, US s => buf_ok s
  | LDur, UD s n => dur_ok (s, n)
  | LData, US s => RecordSpec.payload_ok s
  | _, _ => False
  end.

Definition ukey_ok (k : kty) (x : uval) : Prop :=
  match k, x with
  | KInt i, UI n => int_ok i n
  | KStr, US s => str_ok s
  | _, _ => False
  end.

Fixpoint fits (t : vty) (x : uval) {struct t} : Prop :=
  match t, x with
  | VLeaf l, _ => leaf_ok l x
  | VOpt t, UO o => match o with Some a => fits t a | None => True end
  | VVec t, UL l => Forall (fits t) l /\ zlen l < 2 ^ 31
  | VMap k t, UM m => Forall (fun e => ukey_ok k (fst e) /\ fits t (snd e)) m
                      /\ ascending (kcompare k) (map (fun e => as_key k (fst e)) m) /\ zlen m < 2 ^ 16
  | VStruct fs, UT xs => ffits fs xs
  | VEnum k vs, UE tag y => int_ok k tag /\ nfits vs tag y
  | _, _ => False
  end
with ffits (fs : vfields) (xs : list uval) {struct fs} : Prop :=
  match fs, xs with
  | FNil, [] => True
  | FCons _ _ _ t rest, x :: xs => fits t x /\ ffits rest xs
  | _, _ => False
  end
with nfits (vs : vvars) (tag : Z) (y : uval) {struct vs} : Prop :=
  match vs with
  | NNil => False
  | NCons tg _ t rest => if tg =? tag then fits t y else nfits rest tag y
  end.

(** Types in which the variants of every enum have different tags and every
    default is a value of the field (Rust ensures both). *)
Fixpoint has_tag (vs : vvars) (tag : Z) : bool :=
  match vs with NNil => false | NCons tg _ _ rest => (tg =? tag) || has_tag rest tag end.

Fixpoint well_formed (t : vty) : Prop :=
  match t with
  | VLeaf _ => True
  | VOpt t | VVec t | VMap _ t => well_formed t
  | VStruct fs => fwell_formed fs
  | VEnum _ vs => nwell_formed vs
  end
with fwell_formed (fs : vfields) : Prop :=
  match fs with
  | FNil => True
  | FCons _ _ d t rest => fits t d /\ well_formed t /\ fwell_formed rest
  end
with nwell_formed (vs : vvars) : Prop :=
  match vs with
  | NNil => True
  | NCons tag _ t rest => has_tag rest tag = false /\ well_formed t /\ nwell_formed rest
  end.

(** ** One release *)

(** What arrives when a value is sent at version [v]: the fields this version
    carries, the others have their default. *)
Fixpoint seen (v : Z) (t : vty) (x : uval) : uval :=
  match t with
  | VLeaf _ => x
  | VOpt t => UO (option_map (seen v t) (as_o x))
  | VVec t => UL (map (seen v t) (as_l x))
  | VMap _ t => UM (map (fun e => (fst e, seen v t (snd e))) (as_m x))
  | VStruct fs => UT (fseen v fs (as_t x))
  | VEnum _ vs => UE (as_tag x) (nseen v vs (as_tag x) (as_pay x))
  end
with fseen (v : Z) (fs : vfields) (xs : list uval) : list uval :=
  match fs with
  | FNil => []
  | FCons min max dflt t rest =>
      (if in_range min max v then seen v t (hd dflt xs) else dflt) :: fseen v rest (tl xs)
  end
with nseen (v : Z) (vs : vvars) (tag : Z) (x : uval) : uval :=
  match vs with
  | NNil => x
  | NCons tg _ t rest => if tg =? tag then seen v t x else nseen v rest tag x
  end.

(** Types all of whose fields are sent at version [v]. *)
Fixpoint carries_all (v : Z) (t : vty) : bool :=
  match t with
  | VLeaf _ => true
  | VOpt t | VVec t | VMap _ t => carries_all v t
  | VStruct fs => fcarries_all v fs
  | VEnum _ vs => ncarries_all v vs
  end
with fcarries_all (v : Z) (fs : vfields) : bool :=
  match fs with
  | FNil => true
  | FCons min max _ t rest => in_range min max v && carries_all v t && fcarries_all v rest
  end
with ncarries_all (v : Z) (vs : vvars) : bool :=
  match vs with
  | NNil => true
  | NCons _ _ t rest => carries_all v t && ncarries_all v rest
  end.

(** The message sent by [c] is read by [c'] as [f] of what was sent, and what
    follows it is left alone. *)
Definition arrives_as {A} (c c' : codec A) (ok : A -> Prop) (f : A -> A) : Prop :=
  forall a rest, ok a -> c_dec c' (c_enc c a ++ rest) = Ok (f a, rest).

(** ** Two releases *)

(** The release speaks the version. *)
Definition speaks (r : option Z) (v : Z) : Prop :=
  match r with Some n => v <= n | None => True end.

(** What a receiver of release [rr] gets from a sender of release [rs] at
    version [v]: the fields of this version, converted; of the other fields
    the receiver knows it gets the defaults; what it does not know is gone.
    The value sent has the fields of release [rs]. *)
Fixpoint received (rs rr : option Z) (v : Z) (t : vty) (x : uval) : uval :=
  match t with
  | VLeaf _ => x
  | VOpt t => UO (option_map (received rs rr v t) (as_o x))
  | VVec t => UL (map (received rs rr v t) (as_l x))
  | VMap _ t => UM (map (fun e => (fst e, received rs rr v t (snd e))) (as_m x))
  | VStruct fs => UT (freceived rs rr v fs (as_t x))
  | VEnum _ vs => UE (as_tag x) (nreceived rs rr v vs (as_tag x) (as_pay x))
  end
with freceived (rs rr : option Z) (v : Z) (fs : vfields) (xs : list uval) : list uval :=
  match fs with
  | FNil => []
  | FCons min max dflt t rest =>
      (if knows rr min
       then [if in_range min max v then received rs rr v t (hd (trim rs t dflt) xs) else trim rr t dflt]
       else [])
      ++ freceived rs rr v rest (if knows rs min then tl xs else xs)
  end
with nreceived (rs rr : option Z) (v : Z) (vs : vvars) (tag : Z) (x : uval) : uval :=
  match vs with
  | NNil => x
  | NCons tg _ t rest => if tg =? tag then received rs rr v t x else nreceived rs rr v rest tag x
  end.

(** Every variant that is sent is one the receiver knows. *)
Fixpoint variants_known (rs rr : option Z) (v : Z) (t : vty) (x : uval) : bool :=
  match t with
  | VLeaf _ => true
  | VOpt t => match as_o x with Some a => variants_known rs rr v t a | None => true end
  | VVec t => forallb (variants_known rs rr v t) (as_l x)
  | VMap _ t => forallb (fun e => variants_known rs rr v t (snd e)) (as_m x)
  | VStruct fs => fvariants_known rs rr v fs (as_t x)
  | VEnum _ vs => nvariants_known rs rr v vs (as_tag x) (as_pay x)
  end
with fvariants_known (rs rr : option Z) (v : Z) (fs : vfields) (xs : list uval) : bool :=
  match fs with
  | FNil => true
  | FCons min max dflt t rest =>
      (if in_range min max v then variants_known rs rr v t (hd (trim rs t dflt) xs) else true)
      && fvariants_known rs rr v rest (if knows rs min then tl xs else xs)
  end
with nvariants_known (rs rr : option Z) (v : Z) (vs : vvars) (tag : Z) (x : uval) : bool :=
  match vs with
  | NNil => true
  | NCons tg since t rest =>
      if tg =? tag then knows rr since && variants_known rs rr v t x
      else nvariants_known rs rr v rest tag x
  end.

(** ** Reading at another version than the one written

    A value is written the same way at [v] and at [w]: every field in it is
    sent at both or at neither. *)
Fixpoint same_layout (v w : Z) (t : vty) (x : uval) : Prop :=
  match t with
  | VLeaf _ => True
  | VOpt t => match as_o x with Some a => same_layout v w t a | None => True end
  | VVec t => Forall (same_layout v w t) (as_l x)
  | VMap _ t => Forall (fun e => same_layout v w t (snd e)) (as_m x)
  | VStruct fs => fsame_layout v w fs (as_t x)
  | VEnum _ vs => nsame_layout v w vs (as_tag x) (as_pay x)
  end
with fsame_layout (v w : Z) (fs : vfields) (xs : list uval) : Prop :=
  match fs with
  | FNil => True
  | FCons min max dflt t rest =>
      in_range min max v = in_range min max w
      /\ (in_range min max v = true -> same_layout v w t (hd dflt xs))
      /\ fsame_layout v w rest (tl xs)
  end
with nsame_layout (v w : Z) (vs : vvars) (tag : Z) (x : uval) : Prop :=
  match vs with
  | NNil => True
  | NCons tg _ t rest => if tg =? tag then same_layout v w t x else nsame_layout v w rest tag x
  end.

(** Version [w] only appends to what [v] writes: from some field on, none is
    sent at [v]. *)
Fixpoint none_sent (v : Z) (fs : vfields) : Prop :=
  match fs with
  | FNil => True
  | FCons min max _ _ rest => in_range min max v = false /\ none_sent v rest
  end.

Fixpoint appends (v w : Z) (fs : vfields) (xs : list uval) : Prop :=
  none_sent v fs \/
  match fs with
  | FNil => True
  | FCons min max dflt t rest =>
      in_range min max v = in_range min max w
      /\ (in_range min max v = true -> same_layout v w t (hd dflt xs))
      /\ appends v w rest (tl xs)
  end.
