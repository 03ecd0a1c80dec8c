(** The version manager, fvm: crates/fluvio-version-manager and
    crates/fluvio-hub-util/src/fvm.

    A command is the list of the changes it makes to files, one after the other; it can
    be cut short after any of them and in the middle of a write.

    Simplifications, for the whole file: names of files are numbers and no artifact is
    called manifest.json; a version is its place in the total order of semver::Version,
    a number; what a file with settings or a manifest holds is what it parses to; the
    directory of a channel is keyed by the channel (its name, printed and parsed, is the
    channel again: [FromStr] fvm/mod.rs:99-115; names with slashes or dots only are
    left out). *)
From Verif Require Import Base.
Require Import List. Import ListNotations.

(** [Channel], hub-util/src/fvm/mod.rs:29-34 *)
Inductive channel := Stable | Latest | Tag (v : Z) | Other (n : Z).
Definition channel_eqb (a b : channel) : bool :=
  match a, b with
  | Stable, Stable | Latest, Latest => true
  | Tag x, Tag y | Other x, Other y => x =? y
  | _, _ => false
  end.
(** [Ord for Channel], 54-83; the names of others compare as their numbers *)
Definition channel_cmp (a b : channel) : comparison :=
  match a, b with
  | Stable, Stable => Eq
  | Stable, _ => Gt
  | Latest, Stable => Lt
  | Latest, Latest => Eq
  | Latest, _ => Gt
  | Tag _, Stable | Tag _, Latest => Lt
  | Tag x, Tag y => x ?= y
  | Tag _, Other _ => Lt
  | Other _, Stable | Other _, Latest | Other _, Tag _ => Lt
  | Other x, Other y => x ?= y
  end.
(** [is_version_tag], 94-96 *)
Definition static (c : channel) : bool := match c with Tag _ | Other _ => true | _ => false end.

Section Map.
  Context {V : Type}.
  Fixpoint get (k : Z) (l : list (Z * V)) : option V :=
    match l with [] => None | (x, v) :: t => if x =? k then Some v else get k t end.
  Definition del (k : Z) (l : list (Z * V)) : list (Z * V) := filter (fun e => negb (fst e =? k)) l.
  Definition put (k : Z) (v : V) (l : list (Z * V)) : list (Z * V) := (k, v) :: del k l.
  Fixpoint cget (k : channel) (l : list (channel * V)) : option V :=
    match l with [] => None | (x, v) :: t => if channel_eqb x k then Some v else cget k t end.
  Definition cdel (k : channel) (l : list (channel * V)) := filter (fun e => negb (channel_eqb (fst e) k)) l.
  Definition cput (k : channel) (v : V) (l : list (channel * V)) := (k, v) :: cdel k l.
End Map.

(** [VersionManifest], common/manifest.rs:35-40: the contents are names and versions
    (simplification: a version that does not parse is not there) *)
Record manifest := mkManifest { m_channel : channel; m_version : Z; m_contents : option (list (Z * Z)) }.
Inductive mfile := Missing | Unreadable | Holds (m : manifest).
(** a directory of a version: the manifest and the other files *)
Record vdir := mkDir { d_files : list (Z * bytes); d_manifest : mfile }.
(** settings.toml, common/settings.rs:17-23 *)
Inductive sfile := NoFile | Broken | Set_ (c : option channel) (v : option Z).
(** ~/.fvm/versions, ~/.fluvio/bin and settings.toml *)
Record home := mkHome { h_versions : option (list (channel * vdir)); h_bins : list (Z * bytes); h_settings : sfile }.
Definition fresh : home := mkHome None [] NoFile.

(** ** Changes *)
Inductive op :=
| MkVersions                          (* create_dir_all *)
| MkDir (c : channel)                 (* create_dir *)
| RmFile (c : channel) (f : Z)        (* remove_file *)
| PutFile (c : channel) (f : Z) (b : bytes)   (* rename from the temporary directory *)
| WriteManifest (c : channel) (m : manifest)  (* write *)
| RmManifest (c : channel)
| RmDir (c : channel)
| RmBin (f : Z)                       (* remove_file *)
| PutBin (f : Z) (b : bytes)          (* copy *)
| WriteSettings (c : option channel) (v : option Z).

Definition dirs (h : home) : list (channel * vdir) := match h_versions h with Some l => l | None => [] end.
Definition dir (c : channel) (h : home) : option vdir := cget c (dirs h).
Definition in_dir (c : channel) (f : vdir -> vdir) (h : home) : home :=
  match dir c h with
  | Some d => mkHome (Some (cput c (f d) (dirs h))) (h_bins h) (h_settings h)
  | None => h
  end.
Definition apply (o : op) (h : home) : home :=
  match o with
  | MkVersions => mkHome (Some (dirs h)) (h_bins h) (h_settings h)
  | MkDir c => mkHome (Some (cput c (mkDir [] Missing) (dirs h))) (h_bins h) (h_settings h)
  | RmFile c f => in_dir c (fun d => mkDir (del f (d_files d)) (d_manifest d)) h
  | PutFile c f b => in_dir c (fun d => mkDir (put f b (d_files d)) (d_manifest d)) h
  | WriteManifest c m => in_dir c (fun d => mkDir (d_files d) (Holds m)) h
  | RmManifest c => in_dir c (fun d => mkDir (d_files d) Missing) h
  | RmDir c => mkHome (Some (cdel c (dirs h))) (h_bins h) (h_settings h)
  | RmBin f => mkHome (h_versions h) (del f (h_bins h)) (h_settings h)
  | PutBin f b => mkHome (h_versions h) (put f b (h_bins h)) (h_settings h)
  | WriteSettings c v => mkHome (h_versions h) (h_bins h) (Set_ c v)
  end.
Fixpoint run (l : list op) (h : home) : home := match l with [] => h | o :: t => run t (apply o h) end.
(** what a change leaves that is cut in its middle: writes and copies truncate the file
    first.  Settings that are cut parse to nothing at all, to a channel without a version,
    or not; without a channel and a version the file is empty. *)
Definition torn (k : nat) (o : op) (h : home) : home :=
  match o with
  | PutBin f b => mkHome (h_versions h) (put f (firstn k b) (h_bins h)) (h_settings h)
  | WriteManifest c m => in_dir c (fun d => mkDir (d_files d) Unreadable) h
  | WriteSettings c v =>
      mkHome (h_versions h) (h_bins h)
        (match c, k with None, _ | _, O => Set_ None None | _, S O => Broken | _, _ => Set_ c None end)
  | _ => h
  end.
(** cut after [n] changes, in the next one *)
Definition cut (n k : nat) (l : list op) (h : home) : home :=
  let h' := run (firstn n l) h in match nth_error l n with Some o => torn k o h' | None => h' end.

(** ** Commands *)
(** done, done with a warning that nothing was done (both exit with success), or an error *)
Inductive answer := Done | Warned | Failed.
(** a part of a command: the changes it makes and whether the command goes on *)
Definition part := home -> list op * bool.
Definition seq (p q : part) : part := fun h =>
  let (o1, ok1) := p h in if ok1 then let (o2, ok2) := q (run o1 h) in (o1 ++ o2, ok2) else (o1, false).
Definition finish (r : list op * bool) : list op * answer := (fst r, if snd r then Done else Failed).

(** [VersionDirectory::open], common/version_directory.rs:36-71: fails without a
    directory, without a manifest and when it cannot be read *)
Definition open (c : channel) (h : home) : option (list (Z * bytes) * manifest) :=
  match dir c h with
  | Some d => match d_manifest d with Holds m => Some (d_files d, m) | _ => None end
  | None => None
  end.
(** [set_active], 84-117: copy everything but the manifest to the directory with the
    binaries, then write the settings ([Settings::open], settings.rs:52-63, makes the file
    if there is none; [update_from_manifest], 66-72) *)
Definition copies (fs : list (Z * bytes)) (bins : list (Z * bytes)) : list op :=
  flat_map (fun e => (if get (fst e) bins then [RmBin (fst e)] else []) ++ [PutBin (fst e) (snd e)]) fs.
Definition set_active (c : channel) : part := fun h =>
  match open c h with
  | None => ([], false)
  | Some (fs, m) =>
      let last := WriteSettings (Some (m_channel m)) (Some (m_version m)) in
      match h_settings h with
      | Broken => (copies fs (h_bins h), false)
      | NoFile => (copies fs (h_bins h) ++ [WriteSettings None None; last], true)
      | Set_ _ _ => (copies fs (h_bins h) ++ [last], true)
      end
  end.

(** [Artifact], fvm/mod.rs:119-124, with what is found under its two addresses: the
    data, if the answer is 200, and the digest *)
Record artifact := mkArtifact { a_name : Z; a_version : Z; a_data : option bytes; a_sum : bytes }.
(** [PackageSet], 151-155; [From<PackageSetRecord>], 134-147: the version is the one of
    the artifact called fluvio (name 0), or 0.0.0 *)
Definition fluvio : Z := 0.
Definition set_version (l : list artifact) : Z :=
  match find (fun a => a_name a =? fluvio) l with Some a => a_version a | None => 0 end.

Section Digest.
Context (digest : bytes -> bytes).
(** [Download for Artifact], fvm/api/download.rs:17-30, 47-81: the data, if they have the
    digest *)
Definition fetched (a : artifact) : option bytes :=
  match a_data a with
  | Some b => if list_eq_dec Z.eq_dec (digest b) (a_sum a) then Some b else None
  | None => None
  end.
(** [VersionInstaller::download], version_installer.rs:119-136: the temporary directory;
    fails with the first that fails *)
Fixpoint download (l : list artifact) (tmp : list (Z * bytes)) : option (list (Z * bytes)) :=
  match l with
  | [] => Some tmp
  | a :: t => match fetched a with Some b => download t (put (a_name a) b tmp) | None => None end
  end.
(** [store_artifacts], 143-176: what is there is removed first; the file is renamed, so
    that it is not there for a second artifact of the same name *)
Fixpoint store (c : channel) (l : list artifact) (tmp fs : list (Z * bytes)) : list op * bool :=
  match l with
  | [] => ([], true)
  | a :: t =>
      let rm := if get (a_name a) fs then [RmFile c (a_name a)] else [] in
      match get (a_name a) tmp with
      | None => (rm, false)
      | Some b =>
          let (o, ok) := store c t (del (a_name a) tmp) (put (a_name a) b fs) in
          (rm ++ PutFile c (a_name a) b :: o, ok)
      end
  end.
Definition files (c : channel) (h : home) : list (Z * bytes) := match dir c h with Some d => d_files d | None => [] end.
Definition make_dir (c : channel) : part := fun h =>
  match dir c h, h_versions h with
  | Some _, _ => ([], true)
  | None, Some _ => ([MkDir c], true)
  | None, None => ([], false)
  end.
Definition download_store (c : channel) (l : list artifact) : part := fun h =>
  match download l [] with
  | None => ([], false)
  | Some tmp => seq (make_dir c) (fun h => store c l tmp (files c h)) h
  end.
(** [install], 30-61 *)
Definition write_new (c : channel) (l : list artifact) : part := fun h =>
  ([WriteManifest c (mkManifest c (set_version l) (Some (map (fun a => (a_name a, a_version a)) l)))], true).
Definition installer (c : channel) (l : list artifact) : part :=
  seq (download_store c l) (seq (write_new c l) (set_active c)).
(** command/install.rs:35-51 [process]; [None]: the hub did not give a package set *)
Definition make_versions : part := fun h => (match h_versions h with Some _ => [] | None => [MkVersions] end, true).
Definition install (c : channel) (fetch : option (list artifact)) (h : home) : list op * answer :=
  finish (seq make_versions (match fetch with Some l => installer c l | None => fun _ => ([], false) end) h).

(** [VersionInstaller::update], 63-111: [ups] to replace; the manifest that is there gets
    their versions *)
Definition patched (ups : list artifact) (cs : list (Z * Z)) : list (Z * Z) :=
  map (fun e => match find (fun a => a_name a =? fst e) ups with Some a => (a_name a, a_version a) | None => e end) cs.
Definition rewrite_manifest (c : channel) (ups : list artifact) : part := fun h =>
  match open c h with
  | None => ([], false)
  | Some (_, m) =>
      ([WriteManifest c (mkManifest (m_channel m) (m_version m)
          (match m_contents m with Some cs => Some (patched ups cs) | None => None end))], true)
  end.
Definition updater (c : channel) (ups : list artifact) : part :=
  seq (download_store c ups) (seq (rewrite_manifest c ups) (set_active c)).

(** [as_package_set], version_directory.rs:158-189, and [artifacts_diff],
    fvm/mod.rs:169-196: the artifacts of the hub that are not recorded with their version.
    Simplification: in the order of the hub's list, not of a hash map. *)
Definition recorded (n : Z) (cs : list (Z * Z)) : option Z := get n (rev cs).
Fixpoint unique (l : list artifact) : list artifact :=
  match l with
  | [] => []
  | a :: t => if existsb (fun x => a_name x =? a_name a) t then unique t else a :: unique t
  end.
Definition diff (cs : list (Z * Z)) (l : list artifact) : list artifact :=
  filter (fun a => match recorded (a_name a) cs with Some v => negb (v =? a_version a) | None => true end) (unique l).

(** command/update.rs:26-111 [process]; the settings are made if there are none *)
Definition update (fetch : option (list artifact)) (h : home) : list op * answer :=
  match h_settings h with
  | Broken => ([], Failed)
  | NoFile => ([WriteSettings None None], Warned)
  | Set_ None _ => ([], Warned)
  | Set_ (Some c) v =>
      if static c then ([], Warned)
      else match fetch with
           | None => ([], Failed)
           | Some l =>
               match v with
               | None => ([], Warned)
               | Some v =>
                   match c with
                   | Latest => if set_version l =? v then ([], Done) else finish (installer c l h)
                   | _ =>
                       if v <? set_version l then finish (installer c l h)
                       else if v =? set_version l then
                         match open c h with
                         | Some (_, m) =>
                             match m_contents m with
                             | None => ([], Failed)
                             | Some cs => match diff cs l with [] => ([], Done) | ups => finish (updater c ups h) end
                             end
                         | None => ([], Failed)
                         end
                       else ([], Done)
                   end
               end
           end
  end.
End Digest.

(** command/switch.rs:23-86 [process]; without a version it is an error and left out *)
Definition switch (c : channel) (h : home) : list op * answer :=
  match dir c h with
  | None => ([], Warned)
  | Some _ => finish (set_active c h)
  end.
(** command/uninstall.rs:27-50 [process]; [remove], version_directory.rs:74-81.
    Simplification: the files of a directory are removed in the order of the list, the
    manifest after them. *)
Definition uninstall (c : channel) (h : home) : list op * answer :=
  match dir c h with
  | None => ([], Warned)
  | Some _ => match open c h with
              | Some (fs, _) => (map (fun e => RmFile c (fst e)) fs ++ [RmManifest c; RmDir c], Done)
              | None => ([], Failed)
              end
  end.
(** command/current.rs:18-35 [process]; [None]: the settings cannot be read.
    Simplification: that it makes settings without any is left out. *)
Definition current (h : home) : option (option (channel * Z)) :=
  match h_settings h with
  | Broken => None
  | Set_ (Some c) (Some v) => Some (Some (c, v))
  | _ => Some None
  end.
(** [scan_versions_manifests], version_directory.rs:125-152: the active one apart; it is
    the last one with the active channel in its manifest.  command/list.rs:26-90,
    without a channel. *)
Fixpoint scan (active : option channel) (l : list (channel * vdir)) : option (list manifest * option manifest) :=
  match l with
  | [] => Some ([], None)
  | (_, d) :: t =>
      match d_manifest d with
      | Holds m =>
          match scan active t with
          | Some (ms, a) =>
              if match active with Some c => channel_eqb c (m_channel m) | None => false end
              then Some (ms, match a with Some x => Some x | None => Some m end)
              else Some (m :: ms, a)
          | None => None
          end
      | _ => None
      end
  end.
Definition listed (h : home) : option (list manifest * option manifest) :=
  match h_versions h, h_settings h with
  | None, _ | _, Broken => None
  | Some l, Set_ c _ => scan c l
  | Some l, NoFile => scan None l
  end.
