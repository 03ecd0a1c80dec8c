(** What should hold of the index of packages. *)
From Coq Require Import ZArith List Bool Sorting.Sorted.
Import ListNotations.
From Verif Require Import Base RegistryModel.
Open Scope Z_scope.

(** * Ids *)

(** The normal form of a URL is its own normal form, and a slash at the end stays. *)
Definition url_ok (url : text -> option text) : Prop :=
  forall s r, url s = Some r -> url r = Some r /\ ((exists s0, s = s0 ++ [47]) -> exists r0, r = r0 ++ [47]).
(** Versions have digits, letters, '.', '-' and '+'. *)
Definition semver_ok (semver : text -> bool) : Prop := forall s, semver s = true -> ~ In 47 s /\ ~ In 58 s /\ forall c, In c s -> c < 128.

Definition plain (s : text) : Prop := ~ In 47 s /\ ~ In 58 s.
(** a URL that ends with one slash, not with two *)
Definition one_slash (r : text) : Prop := exists r0, r = r0 ++ [47] /\ forall r1, r0 <> r1 ++ [47].
Definition fine_registry (url : text -> option text) (o : option text) : Prop :=
  match o with Some r => url r = Some r /\ one_slash r | None => True end.
Definition fine_version (semver : text -> bool) (o : option ver) : Prop :=
  match o with
  | Some (Semver s) => semver s = true
  | Some (Tag s) => semver s = false /\ plain s /\ forall c, In c s -> c < 128
  | None => True end.
Definition fine_id (url : text -> option text) (semver : text -> bool) (i : pid) : Prop :=
  fine_registry url (d_registry i) /\ (forall g, d_group i = Some g -> plain g) /\ plain (d_name i) /\ fine_version semver (d_version i).
(** the group "fluvio" need not be named *)
Definition normal (i : pid) : pid :=
  mkPid (d_registry i) (match d_group i with Some g => if same g fluvio then None else Some g | None => None end) (d_name i) (d_version i).
Definition without_version (i : pid) : pid := mkPid (d_registry i) (d_group i) (d_name i) None.
(** the two ids are of the same package, whatever the version *)
Definition same_package (i j : pid) : Prop := registry_in i = registry_in j /\ group_in i = group_in j /\ d_name i = d_name j.

(** * Releases *)

Definition total_order {V} (le : V -> V -> bool) : Prop :=
  (forall a b, le a b = true \/ le b a = true) /\
  (forall a b, le a b = true -> le b a = true -> a = b) /\
  (forall a b c, le a b = true -> le b c = true -> le a c = true).
(** versions without pre-release and build parts, unless those are wanted *)
Definition wanted {V} (special : V -> bool) (prerelease : bool) (v : V) : Prop := prerelease = true \/ special v = false.
Definition ascending {V} (le : V -> V -> bool) : list V -> Prop := StronglySorted (fun a b => le a b = true /\ a <> b).
