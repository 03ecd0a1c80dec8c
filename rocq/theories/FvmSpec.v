(** What the claims on the version manager speak of. *)
From Verif Require Import Base FvmModel.
Require Import List. Import ListNotations.

Definition bin (f : Z) (h : home) : option bytes := get f (h_bins h).
Definition file (c : channel) (f : Z) (h : home) : option bytes := get f (files c h).
(** a file system: no two files of a name in a directory *)
Definition wf (h : home) : Prop :=
  NoDup (map fst (dirs h)) /\ forall c d, In (c, d) (dirs h) -> NoDup (map fst (d_files d)).

(** a package set that can be installed: every name once, all data there, as their
    digests say *)
Definition sound (digest : bytes -> bytes) (l : list artifact) : Prop :=
  NoDup (map a_name l) /\ forall a, In a l -> fetched digest a <> None.
Definition contents_of (l : list artifact) : list (Z * Z) := map (fun a => (a_name a, a_version a)) l.
(** [c] is installed from [l] and active *)
Definition installed (digest : bytes -> bytes) (c : channel) (l : list artifact) (h : home) : Prop :=
  (forall a, In a l -> file c (a_name a) h = fetched digest a /\ bin (a_name a) h = fetched digest a) /\
  (exists fs, open c h = Some (fs, mkManifest c (set_version l) (Some (contents_of l)))) /\
  current h = Some (Some (c, set_version l)).
(** what is in use is what is in the directory [c] *)
Definition in_use (c : channel) (h : home) : Prop := forall f b, file c f h = Some b -> bin f h = Some b.

(** the user's commands *)
Inductive command := Install (c : channel) (fetch : option (list artifact)) | Switch (c : channel)
                   | Uninstall (c : channel) | Update (fetch : option (list artifact)).
Definition changes (digest : bytes -> bytes) (x : command) (h : home) : list op * answer :=
  match x with
  | Install c f => install digest c f h
  | Switch c => switch c h
  | Uninstall c => uninstall c h
  | Update f => update digest f h
  end.
Definition after (digest : bytes -> bytes) (x : command) (h : home) : home := run (fst (changes digest x h)) h.
Definition says (digest : bytes -> bytes) (x : command) (h : home) : answer := snd (changes digest x h).
Fixpoint history (digest : bytes -> bytes) (l : list command) (h : home) : home :=
  match l with [] => h | x :: t => history digest t (after digest x h) end.
(** a hub that lists no artifact twice *)
Definition once (x : command) : Prop :=
  match x with Install _ (Some l) | Update (Some l) => NoDup (map a_name l) | _ => True end.
(** what the hub offers to a command *)
Definition offered (x : command) : list artifact :=
  match x with Install _ (Some l) | Update (Some l) => l | _ => [] end.
(** [b] is under the name [f] at the hub, and has the digest that is published for it *)
Definition published (digest : bytes -> bytes) (l : list artifact) (f : Z) (b : bytes) : Prop :=
  exists a, In a l /\ a_name a = f /\ a_data a = Some b /\ a_sum a = digest b.
(** a tag next to a name that is no version *)
Definition mixed (a b : channel) : Prop :=
  match a, b with Tag _, Other _ | Other _, Tag _ => True | _, _ => False end.
