(** Packages of the hub: assembling, signing, verifying and reading them.
    Source: crates/fluvio-hub-util/src/package.rs (with keymgmt.rs and
    package_meta_ext.rs).

    Simplifications, for the whole file:
    - an archive is the list of its entries, those that cannot be read left out
      (the source skips them); names of entries are single components of a path,
      as [package_assemble] makes them, neither empty nor ".";
    - temporary files are what was written to them; files are not changed while
      they are read;
    - what signatures, archives, JSON and YAML are made of is left open: [scheme]
      has the functions, HubSpec.scheme_ok what is assumed of them. *)
From Verif Require Import Base NameModel.
Require Import List. Import ListNotations.

Definition name := bytes.
Definition name_eq (a b : name) : {a = b} + {a <> b} := list_eq_dec Z.eq_dec a b.
Definition same (a b : name) : bool := if name_eq a b then true else false.

(** FileSig and PackageSignature, package.rs:131-143 *)
Record fsig := mkFsig { f_name : name; f_hash : bytes; f_len : Z; f_sig : bytes }.
Record psig := mkPsig { p_files : list fsig; p_pubkey : bytes }.
(** PackageMeta, fluvio-hub-protocol/src/package_meta.rs:14-31: the manifest, the
    tags, and a text for the rest. *)
Record meta := mkMeta { m_rest : bytes; m_manifest : list (list name); m_tags : option (list (bytes * bytes)) }.

(** Data of files; keys, as text (hex); signatures, as text; archives. *)
Record scheme := mkScheme {
  s_data : Type;
  s_key : Type;
  s_pub : s_key -> bytes;
  s_sign : s_key -> s_data -> bytes;
  s_valid : bytes -> bool;                             (* PublicKey::from_hex, keymgmt.rs:146-154 *)
  s_check : bytes -> s_data -> bytes -> option bool;   (* None: the text is no signature *)
  s_hash : s_data -> bytes;
  s_len : s_data -> Z;
  s_write : psig -> s_data;
  s_read : s_data -> option psig;
  s_pack : list (name * s_data) -> s_data;
  s_unpack : s_data -> option (list (name * s_data));
  s_wmeta : meta -> s_data;
  s_rmeta : s_data -> option meta }.

Inductive herr := NoFiles | BadSigFile | NoSignature | BadKey | NotVerified | MissingFile | BadFile.
Inductive result (A : Type) := Good (a : A) | Bad (e : herr).
Arguments Good {A} a. Arguments Bad {A} e.

(** Constants, fluvio-hub-protocol/src/constants.rs:26-32 and package.rs:25 *)
Definition manifest_blob : name := [109; 97; 110; 105; 102; 101; 115; 116; 46; 116; 97; 114; 46; 103; 122].
Definition package_meta : name := [112; 97; 99; 107; 97; 103; 101; 45; 109; 101; 116; 97; 46; 121; 97; 109; 108].
Definition signfile_base : name := [115; 105; 103; 110; 97; 116; 117; 114; 101].
Definition arch : bytes := [97; 114; 99; 104].

(** [Path::file_stem] of a name: up to its last dot, unless that is its first
    byte. *)
Fixpoint last_dot (l : bytes) (i : nat) : option nat :=
  match l with
  | [] => None
  | c :: t => match last_dot t (S i) with Some j => Some j | None => if c =? 46 then Some i else None end
  end.
Definition stem (n : name) : name :=
  match last_dot n 0 with Some (S i) => firstn (S i) n | _ => n end.

Section Scheme.
  Variable S : scheme.
  Definition entry : Type := name * s_data S.
  Definition archive := list entry.

  (** [PackageSignatureBulder::sign], package.rs:162-179 *)
  Definition sign_file (k : s_key S) (e : entry) : fsig :=
    mkFsig (fst e) (s_hash S (snd e)) (s_len S (snd e)) (s_sign S k (snd e)).
  (** [package_sign], package.rs:188-266: the number of the new signature counts the
      entries whose whole name is that of signatures without a number, 216-219. *)
  Definition sig_number (p : archive) : Z := zlen (filter (fun e => same (fst e) signfile_base) p).
  Definition sig_name (p : archive) : name := signfile_base ++ [46] ++ print_dec (sig_number p).
  Definition package_sign (k : s_key S) (p : archive) : result archive :=
    match p with
    | [] => Bad NoFiles
    | _ => Good (p ++ [(sig_name p, s_write S (mkPsig (map (sign_file k) p) (s_pub S k)))])
    end.

  (** HashMap: an entry replaces one with the same key. *)
  Fixpoint put {A} (k : name) (v : A) (l : list (name * A)) : list (name * A) :=
    match l with
    | [] => [(k, v)]
    | (x, w) :: t => if same x k then (k, v) :: t else (x, w) :: put k v t
    end.
  (** [package_getsigs_with_readio], package.rs:269-306 *)
  Fixpoint getsigs (p : archive) (acc : list (name * psig)) : result (list (name * psig)) :=
    match p with
    | [] => Good acc
    | (n, d) :: t =>
        if same (stem n) signfile_base
        then match s_read S d with Some x => getsigs t (put n x acc) | None => Bad BadSigFile end
        else getsigs t acc
    end.

  (** [package_verify_sig_from_readio], package.rs:432-500.  The state of a file is
      its signature, whether it was seen, and whether it was good. *)
  Definition isv := (bytes * (bool * bool))%type.
  Fixpoint expected (l : list fsig) (acc : list (name * isv)) : list (name * isv) :=
    match l with [] => acc | f :: t => expected t (put (f_name f) (f_sig f, (false, false)) acc) end.
  Fixpoint get {A} (k : name) (l : list (name * A)) : option A :=
    match l with [] => None | (x, v) :: t => if same x k then Some v else get k t end.
  Fixpoint check_all (key : bytes) (p : archive) (acc : list (name * isv)) : result (list (name * isv)) :=
    match p with
    | [] => Good acc
    | (n, d) :: t =>
        match get n acc with
        | None => check_all key t acc
        | Some (sg, _) =>
            match s_check S key d sg with
            | None => Bad BadSigFile
            | Some b => check_all key t (put n (sg, (true, b)) acc)
            end
        end
    end.
  Definition verify_sig (p : archive) (x : psig) : result unit :=
    if s_valid S (p_pubkey x)
    then match check_all (p_pubkey x) p (expected (p_files x) []) with
         | Good l => if forallb (fun e => fst (snd (snd e)) && snd (snd (snd e))) l then Good tt else Bad NotVerified
         | Bad e => Bad e
         end
    else Bad BadKey.
  (** [package_verify_with_readio], package.rs:511-530.  The map is searched in an
      order of its own: [pick] stands for it. *)
  Definition package_verify (pick : nat) (p : archive) (key : bytes) : result unit :=
    match getsigs p [] with
    | Bad e => Bad e
    | Good sigs =>
        let l := filter (fun e => same (p_pubkey (snd e)) key) sigs in
        match nth_error l (Nat.modulo pick (length l)) with
        | Some e => verify_sig p (snd e)
        | None => Bad NoSignature
        end
    end.

  (** [package_get_topfile_with_readio], package.rs:318-344 *)
  Definition topfile (p : archive) (n : name) : result (s_data S) :=
    match get n p with Some d => Good d | None => Bad MissingFile end.
  (** [package_get_manifest_file_with_readio], package.rs:360-389 *)
  Definition manifest_file (p : archive) (n : name) : result (s_data S) :=
    match topfile p manifest_blob with
    | Good blob => match s_unpack S blob with Some l => topfile l n | None => Bad MissingFile end
    | Bad e => Bad e
    end.
  (** [package_get_meta], package_meta_ext.rs:120-127 *)
  Definition get_meta (p : archive) : result meta :=
    match topfile p package_meta with
    | Good d => match s_rmeta S d with Some m => Good m | None => Bad BadFile end
    | Bad e => Bad e
    end.

  (** [Path::file_name]: the last component, unless that is ".." *)
  Definition file_name (path : list name) : option name :=
    match rev path with [] => None | n :: _ => if same n [46; 46] then None else Some n end.
  (** [package_assemble], package.rs:88-104: the files of the manifest *)
  Fixpoint gather (disk : list name -> option (s_data S)) (l : list (list name)) : result archive :=
    match l with
    | [] => Good []
    | path :: t =>
        match file_name path with
        | None => Bad BadFile
        | Some n => match disk path with
                    | None => Bad MissingFile
                    | Some d => match gather disk t with Good r => Good ((n, d) :: r) | Bad e => Bad e end
                    end
        end
    end.
  (** [augment_arch], package.rs:532-549 *)
  Definition augment (tags : option (list (bytes * bytes))) (target : bytes) : option (list (bytes * bytes)) :=
    match tags with
    | None => Some [(arch, target)]
    | Some l => match find (fun e => same (fst e) arch) l with Some _ => tags | None => Some (l ++ [(arch, target)]) end
    end.
  (** [package_assemble], package.rs:59-129.  The manifest of the package has the
      names without directories, 102-103. *)
  Definition clean (m : meta) (target : option bytes) (files : archive) : meta :=
    mkMeta (m_rest m) (map (fun e => [fst e]) files)
           (match target with Some t => augment (m_tags m) t | None => m_tags m end).
  Definition package_assemble (disk : list name -> option (s_data S)) (m : meta) (target : option bytes) : result archive :=
    match gather disk (m_manifest m) with
    | Bad e => Bad e
    | Good files => Good [(package_meta, s_wmeta S (clean m target files)); (manifest_blob, s_pack S files)]
    end.
  (** [package_assemble_and_sign], package.rs:33-45 *)
  Definition assemble_and_sign (disk : list name -> option (s_data S)) (m : meta) (target : option bytes) (k : s_key S) : result archive :=
    match package_assemble disk m target with Good p => package_sign k p | Bad e => Bad e end.
End Scheme.
