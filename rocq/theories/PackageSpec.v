(** What a user means by publishing, withdrawing and naming SmartModules. *)
From Coq Require Import String Ascii.
From Verif Require Import Base NameModel PackageModel.

Definition text (s : string) : bytes := map (fun a => Z.of_nat (nat_of_ascii a)) (list_ascii_of_string s).

(** A module is a version of a package, or has just a name. *)
Inductive ident := Package (p : pkg) | Plain (n : bytes).

(** the name a client gives for it: group/name\@version, or the name *)
Definition name_of (i : ident) : bytes :=
  match i with
  | Package p => p_group p ++ text "/" ++ p_name p ++ text "@" ++ print_version (p_version p)
  | Plain n => n
  end.

Definition u64 (x : Z) : Prop := 0 <= x < 2 ^ 64.
Definition well_named (i : ident) : Prop :=
  match i with
  | Package p => p_group p <> [] /\ p_name p <> [] /\
      ~ In 47 (p_group p) /\ ~ In 47 (p_name p) /\ ~ In 64 (p_name p) /\
      let '(a, b, c) := p_version p in u64 a /\ u64 b /\ u64 c
  | Plain n => ~ In 47 n
  end.

(** A history: modules are published (for a package, [given] is the name in the
    request, which does not matter) and withdrawn by name. *)
Inductive event := Publish (i : ident) (given : bytes) (code : Z) | Withdraw (i : ident).
Definition subject (e : event) : ident := match e with Publish i _ _ => i | Withdraw i => i end.

(** the modules a history speaks of *)
Definition known (h : list event) (i : ident) : Prop := exists e, In e h /\ subject e = i.

Definition module_of (i : ident) (code : Z) : module :=
  match i with Package p => mkM (Some p) code | Plain _ => mkM None code end.
Definition request_of (e : event) : request :=
  match e with
  | Publish (Plain n) _ c => Create n (mkM None c)
  | Publish (Package p) given c => Create given (mkM (Some p) c)
  | Withdraw i => Delete (name_of i)
  end.
Definition registry_after (h : list event) : registry := served (map request_of h).

Definition ident_eq_dec (a b : ident) : {a = b} + {a <> b}.
Proof.
  decide equality.
  - destruct p as [g n v], p0 as [g' n' v'].
    destruct (list_eq_dec Z.eq_dec g g') as [->|]; [|right; congruence].
    destruct (list_eq_dec Z.eq_dec n n') as [->|]; [|right; congruence].
    destruct v as [[a1 a2] a3], v' as [[b1 b2] b3].
    destruct (Z.eq_dec a1 b1) as [->|]; [|right; congruence].
    destruct (Z.eq_dec a2 b2) as [->|]; [|right; congruence].
    destruct (Z.eq_dec a3 b3) as [->|]; [left; reflexivity|right; congruence].
  - apply (list_eq_dec Z.eq_dec).
Defined.

(** what a user expects to be there *)
Definition meant_step (m : ident -> option Z) (e : event) : ident -> option Z :=
  match e with
  | Publish i _ c => fun j => if ident_eq_dec i j then Some c else m j
  | Withdraw i => fun j => if ident_eq_dec i j then None else m j
  end.
Definition meant (h : list event) : ident -> option Z := fold_left meant_step h (fun _ => None).

(** the name under which a module is kept: the name, or name-group-version *)
Definition kept_as (i : ident) : bytes :=
  match i with
  | Package p => p_name p ++ text "-" ++ p_group p ++ text "-" ++ print_version (p_version p)
  | Plain n => n
  end.
(** no two modules of the history are kept under the same name *)
Definition distinct (h : list event) : Prop :=
  forall a b, In a h -> In b h -> kept_as (subject a) = kept_as (subject b) -> subject a = subject b.
Definition good (h : list event) : Prop := Forall (fun e => well_named (subject e)) h /\ distinct h.

(** names that cannot clash: groups without '-', plain names without '.' or without '-' *)
Definition tidy (i : ident) : Prop :=
  match i with Package p => ~ In 45 (p_group p) | Plain n => ~ In 46 n \/ ~ In 45 n end.

Definition newer (a b : version) : Prop :=
  let '(a1, a2, a3) := a in let '(b1, b2, b3) := b in
  a1 > b1 \/ (a1 = b1 /\ (a2 > b2 \/ (a2 = b2 /\ a3 > b3))).

(** the names a client can give *)
Inductive ask := AskName (n : bytes) | AskGroup (g n : bytes) | AskExact (p : pkg).
Definition ask_text (a : ask) : bytes :=
  match a with
  | AskName n => n
  | AskGroup g n => g ++ text "/" ++ n
  | AskExact p => name_of (Package p)
  end.
Definition ask_ok (a : ask) : Prop :=
  match a with
  | AskName n => ~ In 47 n
  | AskGroup g n => ~ In 47 g /\ ~ In 47 n /\ ~ In 64 n
  | AskExact p => well_named (Package p)
  end.
(** the modules that fit such a name: packages as asked, and always the plain one *)
Definition ask_name (a : ask) : bytes :=
  match a with AskName n => n | AskGroup _ n => n | AskExact p => p_name p end.
Definition fits (a : ask) (i : ident) : Prop :=
  match i with
  | Plain n => n = ask_name a
  | Package p => match a with
                 | AskName n => p_name p = n
                 | AskGroup g n => p_group p = g /\ p_name p = n
                 | AskExact q => p = q
                 end
  end.

(** texts that are no version: nothing at all, or a word (a version can start with 'v') *)
Definition letter (c : Z) : Prop := 65 <= c <= 90 \/ 97 <= c <= 122.
Definition no_version (v : bytes) : Prop :=
  v = [] \/ exists c t, v = c :: t /\ letter c /\ c <> 86 /\ c <> 118.
