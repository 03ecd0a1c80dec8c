(** What is to hold of packages of the hub (C98, C99). *)
From Verif Require Import Base NameModel HubModel.
Require Import List. Import ListNotations.

(** What is assumed of signatures, archives and texts: what was written is read
    back, and a signature is good for what it was made of.  Whether a text is a
    signature at all does not depend on the data. *)
Definition scheme_ok (S : scheme) : Prop :=
  (forall k, s_valid S (s_pub S k) = true)
  /\ (forall k d, s_check S (s_pub S k) d (s_sign S k d) = Some true)
  /\ (forall key d d' t, s_check S key d t = None -> s_check S key d' t = None)
  /\ (forall x, s_read S (s_write S x) = Some x)
  /\ (forall l, s_unpack S (s_pack S l) = Some l)
  /\ (forall m, s_rmeta S (s_wmeta S m) = Some m).

(** The data is signed with the key. *)
Definition signed_by (S : scheme) (key : bytes) (d : s_data S) (t : bytes) : Prop := s_check S key d t = Some true.

(** A package before it is signed: names occur once, and there are no signatures. *)
Definition plain (S : scheme) (p : archive S) : Prop :=
  p <> [] /\ NoDup (map fst p) /\ Forall (fun e => stem (fst e) <> signfile_base) p.

(** [t] is the text that a signature lists for the file [n]. *)
Definition lists (x : psig) (n : name) (t : bytes) : Prop :=
  exists a f b, p_files x = a ++ f :: b /\ f_name f = n /\ f_sig f = t /\ Forall (fun g => f_name g <> n) b.
(** [d] is what the archive has last under the name [n]. *)
Definition last_entry (S : scheme) (p : archive S) (n : name) (d : s_data S) : Prop :=
  exists a b, p = a ++ (n, d) :: b /\ Forall (fun e => fst e <> n) b.

(** The names of a package changed, and the names in its signature with them: no
    key is needed for that. *)
Definition renamed {A} (f : name -> name) (p : list (name * A)) : list (name * A) := map (fun e => (f (fst e), snd e)) p.
Definition renamed_sig (f : name -> name) (x : psig) : psig :=
  mkPsig (map (fun g => mkFsig (f (f_name g)) (f_hash g) (f_len g) (f_sig g)) (p_files x)) (p_pubkey x).
Definition signature_0 : name := signfile_base ++ [46; 48].

(** The name of a file without its directories. *)
Definition base (path : list name) : name := last path [].

(** The path names a file that is there. *)
Definition fits_disk (S : scheme) (disk : list name -> option (s_data S)) (path : list name) : Prop :=
  path <> [] /\ base path <> [46; 46] /\ disk path <> None.
(** The first path of the list with the name [n] is [path]. *)
Definition first_named (n : name) (l : list (list name)) (path : list name) : Prop :=
  exists a b, l = a ++ path :: b /\ base path = n /\ Forall (fun o => base o <> n) a.

(** A toy, for the examples: data is what it says, a signature is the key and what
    is signed. *)
Inductive tdata := TRaw (b : bytes) | TSig (x : psig) | TMeta (m : meta) | TPack (l : list (name * tdata)).
Definition tcode (d : tdata) : bytes :=
  match d with TRaw b => b | TSig x => [zlen (p_files x)] | TMeta m => m_rest m | TPack l => [zlen l] end.
Definition tsign (k : bytes) (d : tdata) : bytes := 1 :: k ++ tcode d.
Definition toy : scheme :=
  mkScheme tdata bytes (fun k => k) tsign (fun _ => true)
    (fun key d t => match t with [] => None | _ => Some (same t (tsign key d)) end)
    (fun d => tcode d) (fun d => zlen (tcode d))
    TSig (fun d => match d with TSig x => Some x | _ => None end)
    TPack (fun d => match d with TPack l => Some l | _ => None end)
    TMeta (fun d => match d with TMeta m => Some m | _ => None end).
