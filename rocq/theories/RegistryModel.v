(** The index of packages: the ids of packages and their releases.
    Source: crates/fluvio-package-index/src (package_id.rs, version.rs, tags.rs,
    package.rs).

    Text is a list of byte values; '/' is 47, ':' is 58.  What a URL and what a
    semantic version is, is left open: [url] gives the normal form of a text that
    is a URL, [semver] tells which texts are versions; RegistrySpec has what is
    assumed of them.  A version is printed as it was read (semver 1.0). *)
From Verif Require Import Base NameModel PackageModel.
Require Import List. Import ListNotations.

Definition text := bytes.
Definition text_eq (a b : text) : {a = b} + {a <> b} := list_eq_dec Z.eq_dec a b.
Definition same (a b : text) : bool := if text_eq a b then true else false.
Definition has (c : Z) (s : text) : bool := existsb (Z.eqb c) s.

(** "fluvio", package_id.rs:33; "https://packages.fluvio.io/v1/", package_id.rs:28-31 *)
Definition fluvio : text := [102; 108; 117; 118; 105; 111].
Definition default_registry : text :=
  [104; 116; 116; 112; 115; 58; 47; 47; 112; 97; 99; 107; 97; 103; 101; 115; 46; 102; 108; 117; 118; 105; 111; 46; 105; 111; 47; 118; 49; 47].

(** PackageVersion, version.rs:15-18 *)
Inductive ver := Semver (s : text) | Tag (s : text).
(** PackageId, package_id.rs:194-199 *)
Record pid := mkPid { d_registry : option text; d_group : option text; d_name : text; d_version : option ver }.

(** [str::split] to the list of all parts *)
Definition split (c : Z) (s : text) : list text := let '(h, r) := split_on c s in h :: r.
Fixpoint join (c : Z) (l : list text) : text :=
  match l with [] => [] | [s] => s | s :: r => s ++ c :: join c r end.
Definition ends_with (c : Z) (s : text) : bool := match rev s with x :: _ => x =? c | [] => false end.

Section Parse.
Variable url : text -> option text.
Variable semver : text -> bool.

(** Registry::try_from_segments, package_id.rs:13-25 *)
Definition registry_of (segments : list text) : option text :=
  match segments with
  | [] => None
  | _ => let r := join 47 segments in url (if ends_with 47 r then r else r ++ [47])
  end.

(** GroupName and PackageName from text, package_id.rs:79-87 *)
Definition name_ok (s : text) : bool := negb (has 47 s) && negb (has 58 s).
(** TagName from text, tags.rs:16-33 *)
Definition tag_ok (s : text) : bool := forallb (fun c => c <? 128) s && negb (has 47 s).
(** PackageVersion from text, version.rs:20-39 *)
Definition parse_ver (s : text) : option ver :=
  if semver s then Some (Semver s) else if tag_ok s then Some (Tag s) else None.

(** package_id.rs:332-336, 370-374: no group and the group "fluvio" are the same *)
Definition group_of (rest : list text) : option (option text) :=
  match rest with
  | [] => Some None
  | g :: _ => if same g fluvio then Some None else if name_ok g then Some (Some g) else None
  end.

(** package_id.rs:330-347 and 364-384: what is common to the two *)
Definition finish (n : text) (v : option ver) (rest : list text) : option pid :=
  if name_ok n then
    match group_of rest with
    | Some g => Some (mkPid (registry_of (rev (tl rest))) g n v)
    | None => None
    end
  else None.

(** PackageId from text: package_id.rs:317-349 if a version is [needed], else 351-386 *)
Definition parse_id (needed : bool) (s : text) : option pid :=
  match rev (split 47 s) with
  | [] => None
  | nv :: rest =>
      match split 58 nv with
      | [n] => if needed then None else finish n None rest
      | [n; v] => match parse_ver v with Some w => finish n (Some w) rest | None => None end
      | _ => None
      end
  end.
End Parse.

(** package_id.rs:203-216 *)
Definition registry_in (i : pid) : text := match d_registry i with Some r => r | None => default_registry end.
Definition group_in (i : pid) : text := match d_group i with Some g => g | None => fluvio end.
(** version.rs:52-59 *)
Definition print_ver (v : ver) : text := match v with Semver s => s | Tag s => s end.
(** package_id.rs:388-400, 402-419 *)
Definition print_id (i : pid) : text :=
  (match d_registry i with Some r => r | None => [] end) ++ group_in i ++ [47] ++ d_name i ++
  (match d_version i with Some v => 58 :: print_ver v | None => [] end).
(** package_id.rs:229-236 *)
Definition pretty (i : pid) : text :=
  (match d_registry i, d_group i with
   | Some r, _ => r ++ group_in i ++ [47]
   | None, Some g => g ++ [47]
   | None, None => [] end) ++ d_name i.
(** package_id.rs:252-254 *)
Definition uid (i : pid) : text := registry_in i ++ group_in i ++ [47] ++ d_name i.

(** * Releases.  [V] are the versions, [le] their order; [special] are those with a
    pre-release or build part.  Targets are numbers. *)
Section Releases.
Variable V : Type.
Variable le : V -> V -> bool.
Variable special : V -> bool.

(** Release, package.rs:162-170 *)
Record release := mkRel { l_version : V; l_yanked : bool; l_targets : list Z }.
(** [version_exactly_eq], package.rs:114-116: the order of semver 1.0 has the build part too *)
Definition veq (a b : V) : bool := le a b && le b a.

(** Release::add_target, package.rs:183-191 *)
Definition add_target (t : Z) (r : release) : release :=
  if existsb (Z.eqb t) (l_targets r) then r else mkRel (l_version r) (l_yanked r) (l_targets r ++ [t]).
(** [sort_by] with the order of versions, package.rs:99: a stable sort *)
Fixpoint insert (r : release) (l : list release) : list release :=
  match l with [] => [r] | x :: t => if le (l_version r) (l_version x) then r :: l else x :: insert r t end.
Fixpoint sort (l : list release) : list release := match l with [] => [] | x :: t => insert x (sort t) end.

Fixpoint add_to (v : V) (t : Z) (l : list release) : option (list release) :=
  match l with
  | [] => None
  | r :: rest => if veq (l_version r) v then Some (add_target t r :: rest)
                 else option_map (cons r) (add_to v t rest)
  end.
(** Package::add_release, package.rs:85-104 *)
Definition add_release (l : list release) (vt : V * Z) : list release :=
  match add_to (fst vt) (snd vt) l with
  | Some l' => l'
  | None => sort (l ++ [mkRel (fst vt) false [snd vt]])
  end.
Definition published (h : list (V * Z)) : list release := fold_left add_release h [].

(** package.rs:54-60 *)
Definition latest (l : list release) : option release := match rev l with x :: _ => Some x | [] => None end.
(** package.rs:66-78 *)
Definition latest_for (t : Z) (prerelease : bool) (l : list release) : option release :=
  find (fun r => if negb prerelease && special (l_version r) then false else existsb (Z.eqb t) (l_targets r)) (rev l).
(** package.rs:106-111 *)
Definition for_target (t : Z) (l : list release) : list release := filter (fun r => existsb (Z.eqb t) (l_targets r)) l.
End Releases.
