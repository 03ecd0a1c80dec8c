(** Names of packages on the hub: where a package is uploaded to and downloaded
    from, and what its files are called.
    Source: crates/fluvio-hub-protocol/src/package_meta.rs,
    crates/fluvio-hub-util/src/utils.rs, package_meta_ext.rs.

    Text is a list of byte values; '-' is 45, '.' is 46, '/' is 47, ':' is 58, '@'
    is 64, '_' is 95.  What the hub does is not modelled. *)
Require Import List. Import ListNotations.
From Verif Require Import Base NameModel PackageModel RegistryModel.

(** The fields of PackageMeta that name it, package_meta.rs:15-30 *)
Record pm := mkPm { h_group : text; h_name : text; h_version : text }.
(** ".ipkg", constants.rs:27 *)
Definition ipkg : text := [46; 105; 112; 107; 103].

(** [validate_allowedchars], package_meta.rs:236-246 *)
Definition allowed (c : Z) : bool := ((97 <=? c) && (c <=? 122)) || ((48 <=? c) && (c <=? 57)) || (c =? 58) || (c =? 45) || (c =? 95).
(** [packagename_validate], package_meta.rs:208-218 and package_meta_ext.rs:80-90 *)
Definition name_valid (s : text) : bool := forallb allowed s.
Definition filled (s : text) : bool := match s with [] => false | _ => true end.
(** [naming_check], package_meta.rs:154-170.  The check for lower case says nothing
    more: text of allowed characters is in lower case. *)
Definition naming_check (p : pm) : bool :=
  name_valid (h_group p) && filled (h_group p) && name_valid (h_name p) && filled (h_name p).

(** package_meta.rs:80-82 *)
Definition pkg_name (p : pm) : text := h_group p ++ [47] ++ h_name p ++ [64] ++ h_version p.
(** package_meta.rs:85-90 *)
Definition obj_name (p : pm) : text := h_group p ++ [47] ++ h_name p ++ [45] ++ h_version p ++ ipkg.
(** [object_path_from_name], package_meta.rs:97-116 *)
Definition object_path (s : text) : option text :=
  match split 47 s with
  | [g; nv] => match split 64 nv with [n; v] => Some (g ++ [47] ++ n ++ [45] ++ v ++ ipkg) | _ => None end
  | _ => None
  end.
(** package_meta.rs:119-121 *)
Definition packagefile (p : pm) : text := h_name p ++ [45] ++ h_version p ++ ipkg.
(** package_meta_ext.rs:111-117: the name of what the compiler makes of it *)
Definition transformed (s : text) : option text := if name_valid s then Some (map (fun c => if c =? 45 then 95 else c) s) else None.

(** [str::find] and [split_at] with what was found left out; [trim_start_matches] *)
Fixpoint cut_first (c : Z) (s : text) : option (text * text) :=
  match s with
  | [] => None
  | x :: t => if x =? c then Some ([], t) else match cut_first c t with Some (a, b) => Some (x :: a, b) | None => None end
  end.
Fixpoint trim (c : Z) (s : text) : text := match s with x :: t => if x =? c then trim c t else s | [] => [] end.

(** [cli_pkgname_split], utils.rs:32-45 *)
Definition cli_split (s : text) : option (text * text * text) :=
  match split_last 64 s with
  | None => None
  | Some (orgpkg, ver) =>
      let '(org, pkg) := match cut_first 47 orgpkg with Some (a, b) => (a, trim 47 b) | None => ([], orgpkg) end in
      Some (org, pkg, trim 64 ver)
  end.
(** [cli_pkgname_to_url] and [cli_conn_pkgname_to_url], utils.rs:48-69; [base] is
    "{remote}/{HUB_API_SM}", or "{remote}/{HUB_API_CONN_PKG}/{target}" *)
Definition cli_url (base s : text) : option text :=
  match cli_split s with
  | None => None
  | Some (org, pkg, ver) =>
      Some (base ++ [47] ++ (match org with [] => [] | _ => org ++ [47] end) ++ pkg ++ [47] ++ ver)
  end.
(** [cli_pkgname_to_filename], utils.rs:72-81 *)
Definition cli_file (s : text) : option text :=
  match cli_split s with
  | None => None
  | Some (org, pkg, ver) => Some ((match org with [] => [] | _ => org ++ [45] end) ++ pkg ++ [45] ++ ver ++ ipkg)
  end.
(** [push_package], [push_package_conn], utils.rs:151-173: where to *)
Definition push_url (base : text) (p : pm) : text := base ++ [47] ++ h_group p ++ [47] ++ h_name p ++ [47] ++ h_version p.
(** [push_package_api], utils.rs:203-218: whether it is sent.  [file] is the name of
    the file. *)
Definition push_sent (file : text) (p : pm) : bool := name_valid (h_name p) && same file (packagefile p).
