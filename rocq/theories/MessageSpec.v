(** What users of the admin API rely on: the object they asked to create,
    delete or change is the one the server works on. *)
From Verif Require Import MessageModel VersionSpec.

(** The type of the spec of an object, and what of it a version carries.  A
    SmartModule before version 10 is only its code. *)
Definition spec_ty (o : obj) : vty :=
  match o with
  | OTopic => topic_spec
  | OCustomSpu => custom_spu_spec
  | OSpuGroup => spu_group_spec
  | OSmartModule => smartmodule_spec
  | OTableFormat => table_format_spec
  | OMirror => mirror_spec
  end.

Definition spec_seen (v : Z) (o : obj) (x : uval) : uval :=
  match o with
  | OSmartModule =>
      if v <? 10 then UT [UO None; UO None; nth 2 (as_t x) default_wasm] else seen v smartmodule_spec x
  | _ => seen v (spec_ty o) x
  end.

(** A create request a client can send: the values have their types, and the
    contents are short enough for the length field. *)
Definition create_ok (v : Z) (c : create) : Prop :=
  let '(o, common, spec) := c in
  fits create_common common /\ fits (spec_ty o) spec /\ zlen (plain_enc v c) < 2 ^ 32.

(** What the server has to get. *)
Definition create_seen (v : Z) (c : create) : create :=
  let '(o, common, spec) := c in (o, seen v create_common common, spec_seen v o spec).

(** Requests of the versions 9 and 10 that survive the conversion: topics with
    computed replicas, or without any assigned partition; SmartModules
    without metadata at version 10; SPUs, SPU groups and table formats. *)
Definition survives_conversion (v : Z) (c : create) : Prop :=
  let '(o, _, spec) := c in
  match o with
  | OTopic => exists replicas rest, spec = UT (replicas :: rest) /\
      (as_tag replicas = 1 \/ replicas = UE 0 (UT [UL []]))
  | OSmartModule => v = 10 /\ exists rest, spec = UT (UO None :: rest)
  | OMirror => False
  | _ => True
  end.

Definition body_ok (v : Z) (t : vty) (x : uval) : Prop :=
  fits t x /\ zlen (c_enc (vcodec v t) x) < 2 ^ 32.

(** The versions from which the parts of the objects are kept, as the comments
    and release notes of the protocol have them. *)
Definition from_v {A} (v first : Z) (x dflt : A) : A := if first <=? v then x else dflt.
Definition from_to {A} (v first last : Z) (x dflt : A) : A := if (first <=? v) && (v <=? last) then x else dflt.
