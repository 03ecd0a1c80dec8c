(** Names of SmartModules: what is registered under which name, and what a name
    given by a client is resolved to.

    Text is a list of byte values; '/' is 47, '@' is 64, '-' is 45, '.' is 46.
    The registry of the system controller (SC) and the copy of it on a storage
    node (SPU) have the same content here (how it gets there is C14, C45).  A
    module is its package, if it has one, and its code, a number. *)
From Verif Require Import Base NameModel.

(** Version of a package.  Simplification: three numbers; pre-release and build
    parts of semver are left out. *)
Definition version := (Z * Z * Z)%type.

(** [Display] of semver::Version, used by package.rs 248-252 *)
Definition print_version (v : version) : bytes :=
  let '(a, b, c) := v in print_dec a ++ [46] ++ print_dec b ++ [46] ++ print_dec c.

(** [str::split] with a character: the first part and the others *)
Fixpoint split_on (c : Z) (s : bytes) : bytes * list bytes :=
  match s with
  | [] => ([], [])
  | x :: t => let '(h, r) := split_on c t in if x =? c then ([], h :: r) else (x :: h, r)
  end.

(** a number of a version, u64 *)
Definition parse_number (s : bytes) : option Z :=
  match s with [] => None | _ => parse_digits (2 ^ 64 - 1) 0 s end.

(** [lenient_semver::parse], called in package.rs 167: missing numbers are zero.
    Simplification: everything but one to three decimal numbers is an error. *)
Definition parse_version (s : bytes) : option version :=
  let '(a, r) := split_on 46 s in
  match parse_number a, r with
  | Some x, [] => Some (x, 0, 0)
  | Some x, [b] => match parse_number b with Some y => Some (x, y, 0) | None => None end
  | Some x, [b; c] => match parse_number b, parse_number c with
                      | Some y, Some z => Some (x, y, z)
                      | _, _ => None
                      end
  | _, _ => None
  end.

(** crates/fluvio-controlplane-metadata/src/smartmodule/package.rs 76-92
    [SmartModulePackage]: the fields that take part in naming *)
Record pkg := mkPkg { p_group : bytes; p_name : bytes; p_version : version }.

(** package.rs 140-145 [SmartModulePackageKey] *)
Record key := mkKey { k_name : bytes; k_group : option bytes; k_version : option version }.

(** package.rs 211-225 [SmartModulePackageKey::store_id] *)
Definition store_id (k : key) : bytes :=
  k_name k ++ match k_group k with Some g => 45 :: g | None => [] end
           ++ match k_version k with Some v => 45 :: print_version v | None => [] end.
(** package.rs 95-102 [SmartModulePackage::store_id] *)
Definition pkg_id (p : pkg) : bytes := store_id (mkKey (p_name p) (Some (p_group p)) (Some (p_version p))).
(** package.rs 104-106 [is_valid] *)
Definition pkg_valid (p : pkg) : bool :=
  match p_name p, p_group p with _ :: _, _ :: _ => true | _, _ => false end.
(** package.rs 108-113 [fqdn] *)
Definition pkg_fqdn (p : pkg) : bytes := p_group p ++ [47] ++ p_name p ++ [64] ++ print_version (p_version p).

(** package.rs 153-185 [from_qualified_name]; [None] is InvalidVersion *)
Definition qualified (s : bytes) : option key :=
  let '(first, rest) := split_on 47 s in
  match rest with
  | [] => Some (mkKey first None None)
  | name_part :: _ =>
      let '(second, vrest) := split_on 64 name_part in
      match vrest with
      | [] => Some (mkKey second (Some first) None)
      | v :: _ => match parse_version v with
                  | Some v' => Some (mkKey second (Some first) (Some v'))
                  | None => None
                  end
      end
  end.

Definition text_eqb (a b : bytes) : bool := if list_eq_dec Z.eq_dec a b then true else false.
Definition version_eqb (a b : version) : bool :=
  let '(a1, a2, a3) := a in let '(b1, b2, b3) := b in (a1 =? b1) && (a2 =? b2) && (a3 =? b3).

(** package.rs 190-208 [is_match] *)
Definition is_match (k : key) (name : bytes) (package : option pkg) : bool :=
  match package with
  | Some p =>
      match k_version k with Some v => version_eqb (p_version p) v | None => true end
      && match k_group k with Some g => text_eqb (p_group p) g | None => true end
      && text_eqb (k_name k) (p_name p)
  | None => text_eqb (k_name k) name
  end.

(** ** The registry *)

Record module := mkM { m_pkg : option pkg; m_code : Z }.

(** The store of the SPU is a map ordered by name
    (crates/fluvio-spu/src/core/store.rs 49 [LocalStore], a BTreeMap; strings are
    ordered by their bytes).  The store of the SC is a hash map; its order only
    shows in lists and is not modelled. *)
Definition registry := list (bytes * module).

Fixpoint text_ltb (a b : bytes) : bool :=
  match a, b with
  | _, [] => false
  | [], _ :: _ => true
  | x :: a', y :: b' => (x <? y) || ((x =? y) && text_ltb a' b')
  end.
Fixpoint entry (r : registry) (id : bytes) : option module :=
  match r with [] => None | (i, m) :: r' => if text_eqb i id then Some m else entry r' id end.
Fixpoint insert (r : registry) (id : bytes) (m : module) : registry :=
  match r with
  | [] => [(id, m)]
  | (i, m') :: r' => if text_ltb id i then (id, m) :: r
                     else if text_eqb id i then (id, m) :: r' else (i, m') :: insert r' id m
  end.
Definition erase (r : registry) (id : bytes) : registry := filter (fun e => negb (text_eqb (fst e) id)) r.

(** what a request is answered: done under this name, not found, refused *)
Inductive answer := Done (id : bytes) | NotFound | Refused.

(** crates/fluvio-sc/src/services/public_api/smartmodule/create.rs 57-88
    [process_smartmodule_request]: a package is stored under its own id, whatever
    name was given; [create_spec] writes over what is there.  Failures of the
    store are left out. *)
Definition create (name : bytes) (m : module) (r : registry) : answer * registry :=
  match m_pkg m with
  | Some p => if pkg_valid p then (Done (pkg_id p), insert r (pkg_id p) m) else (Refused, r)
  | None => (Done name, insert r name m)
  end.

(** smartmodule/delete.rs 41-68 [handle_delete_smartmodule] *)
Definition delete (name : bytes) (r : registry) : answer * registry :=
  match qualified name with
  | None => (Refused, r)
  | Some k => match entry r (store_id k) with
              | Some _ => (Done name, erase r (store_id k))
              | None => (NotFound, r)
              end
  end.

(** smartmodule/list.rs 43-83 [fetch_smart_modules]; [None] for a filter that
    cannot be parsed *)
Fixpoint keys_of (filters : list bytes) : option (list key) :=
  match filters with
  | [] => Some []
  | f :: fs => match qualified f, keys_of fs with Some k, Some ks => Some (k :: ks) | _, _ => None end
  end.
Definition list_modules (filters : list bytes) (r : registry) : option registry :=
  match keys_of filters with
  | None => None
  | Some [] => Some r
  | Some ks => Some (filter (fun e => existsb (fun k => is_match k (fst e) (m_pkg (snd e))) ks) r)
  end.

(** The name of a module in lists: smartmodule/spec.rs 91-97 [SmartModuleSpec::fqdn],
    printed by crates/fluvio-cli/src/client/smartmodule/list.rs 122 *)
Definition shown (id : bytes) (m : module) : bytes :=
  match m_pkg m with Some p => pkg_fqdn p | None => id end.

(** The check when a topic is created with deduplication:
    public_api/topic/create.rs 115-138; whether the filter is found *)
Definition loaded (uses : bytes) (r : registry) : bool :=
  match qualified uses with
  | None => false
  | Some k => match entry r (store_id k) with Some _ => true | None => false end
  end.

(** What the SPU runs for a name: crates/fluvio-spu/src/core/smartmodule/metadata.rs
    28-37 [find_by_pk_key], called by smartengine/context.rs 99-121
    [resolve_invocation], for the modules of a client and for the deduplication
    filter of a topic (smartengine/mod.rs 184-205 [dedup_to_invocation]) *)
Definition resolve (name : bytes) (r : registry) : option module :=
  match qualified name with
  | None => None
  | Some k => match find (fun e => is_match k (fst e) (m_pkg (snd e))) r with
              | Some e => Some (snd e)
              | None => None
              end
  end.

(** ** Requests one after the other *)
Inductive request := Create (name : bytes) (m : module) | Delete (name : bytes).
Definition serve (r : registry) (q : request) : registry :=
  match q with Create n m => snd (create n m r) | Delete n => snd (delete n r) end.
Definition served (qs : list request) : registry := fold_left serve qs [].
