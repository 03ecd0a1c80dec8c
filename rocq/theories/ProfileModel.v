(** Profiles of the client: fluvio/src/config/config.rs, the commands of
    fluvio-cli/src/profile, and which cluster a command goes to
    (fluvio-extension-common/src/lib.rs).

    Simplifications, for the whole file: names and addresses are numbers (only
    equality is used); what a file holds is a config, or it cannot be read as one; the
    maps are lists of pairs. *)
From Verif Require Import Base.
Require Import List. Import ListNotations.

Section Map.
  Context {V : Type}.
  Fixpoint get (k : Z) (l : list (Z * V)) : option V :=
    match l with [] => None | (x, v) :: t => if x =? k then Some v else get k t end.
  Definition del (k : Z) (l : list (Z * V)) : list (Z * V) := filter (fun e => negb (fst e =? k)) l.
  Definition put (k : Z) (v : V) (l : list (Z * V)) : list (Z * V) := (k, v) :: del k l.
End Map.

(** [TlsPolicy]; verified with some certificates *)
Inductive tls := Disabled | Anonymous | Verified (n : Z).
(** [FluvioClusterConfig], config/cluster.rs:21-45; of the metadata only the type of
    the installation *)
Record cluster := mkCluster { c_endpoint : Z; c_tls : tls; c_local : bool; c_install : option Z }.
(** [Profile], config.rs:436-440, without the partition *)
Record profile := mkProfile { f_cluster : Z; f_topic : option Z }.
(** [Config], 197-203, without version and client id *)
Record config := mkConfig { g_current : option Z; g_profiles : list (Z * profile); g_clusters : list (Z * cluster) }.
Definition new_config : config := mkConfig None [] [].

(** [set_current_profile], 246-253 *)
Definition set_current (p : Z) (g : config) : config * bool :=
  match get p (g_profiles g) with
  | Some _ => (mkConfig (Some p) (g_profiles g) (g_clusters g), true)
  | None => (g, false)
  end.
(** [rename_profile], 255-275 *)
Definition rename_profile (from to : Z) (g : config) : config * bool :=
  match get from (g_profiles g) with
  | None => (g, false)
  | Some q =>
      (mkConfig (match g_current g with Some c => if c =? from then Some to else Some c | None => None end)
                (put to q (del from (g_profiles g))) (g_clusters g), true)
  end.
(** [delete_profile], 278-291 *)
Definition delete_profile (p : Z) (g : config) : config * bool :=
  match get p (g_profiles g) with
  | None => (g, false)
  | Some _ =>
      (mkConfig (match g_current g with Some c => if p =? c then None else Some c | None => None end)
                (del p (g_profiles g)) (g_clusters g), true)
  end.
(** [delete_cluster], 313-315, and [delete_cluster_check], 340-354 *)
Definition delete_cluster (c : Z) (g : config) : config := mkConfig (g_current g) (g_profiles g) (del c (g_clusters g)).
Definition conflicts (c : Z) (g : config) : list Z := map fst (filter (fun e => f_cluster (snd e) =? c) (g_profiles g)).
(** [current_cluster], 357-364 and 377-385; [cluster_with_profile], 399-403 *)
Inductive found := Use (c : cluster) | NoActiveProfile | NoCluster | Invalid | NoFile.
Definition current_cluster (g : config) : found :=
  match g_current g with
  | None => NoActiveProfile
  | Some p =>
      match get p (g_profiles g) with
      | None => NoActiveProfile
      | Some q => match get (f_cluster q) (g_clusters g) with Some c => Use c | None => NoCluster end
      end
  end.
Definition cluster_with_profile (p : Z) (g : config) : option cluster :=
  match get p (g_profiles g) with Some q => get (f_cluster q) (g_clusters g) | None => None end.
(** [add_or_replace_profile], 154-187, without saving *)
Definition add_or_replace (n addr : Z) (t : tls) (g : config) : config :=
  let cs := match get n (g_clusters g) with
            | Some c => put n (mkCluster addr t (c_local c) (c_install c)) (g_clusters g)
            | None => put n (mkCluster addr t false None) (g_clusters g)
            end in
  let ps := match get n (g_profiles g) with
            | Some q => put n (mkProfile n (f_topic q)) (g_profiles g)
            | None => put n (mkProfile n None) (g_profiles g)
            end in
  fst (set_current n (mkConfig (g_current g) ps cs)).
(** add.rs:31-32: the type of the installation in the cluster of the current profile *)
Definition set_install (i : Z) (g : config) : config :=
  match current_cluster g, g_current g with
  | Use c, Some p =>
      match get p (g_profiles g) with
      | Some q => mkConfig (g_current g) (g_profiles g) (put (f_cluster q) (mkCluster (c_endpoint c) (c_tls c) (c_local c) (Some i)) (g_clusters g))
      | None => g
      end
  | _, _ => g
  end.

(** * The file *)
Inductive file := Missing | Unreadable | Holds (g : config).
(** [ConfigFile::load], 88-109: an error for both *)
Definition load (f : file) : option config := match f with Holds g => Some g | _ => None end.
(** [load_default_or_new], 76-85, and add.rs:21-27 *)
Definition load_or_new (f : file) : config := match load f with Some g => g | None => new_config end.
(** [save], 143-150, and [save_to], config_file.rs:34-43: the file is emptied and then
    written.  It may fail before that, or be cut off in the middle.  (What is left
    then may happen to be readable; here it is not.) *)
Inductive write := Written | Refused | Cut.
Definition save (w : write) (g : config) (f : file) : file * bool :=
  match w with Written => (Holds g, true) | Refused => (f, false) | Cut => (Unreadable, false) end.

(** * Commands *)
Inductive command :=
  | Add (n addr : Z) (t : tls) (i : Z)       (* profile add, add.rs:20-37; starting a cluster, cluster/src/start/local.rs:599-607 *)
  | Sync (n addr : Z) (t : tls)              (* profile sync, sync/local.rs:35-71, sync/k8.rs:68-111 *)
  | Switch (p : Z)                           (* switch.rs:18-32 *)
  | Rename (from to : Z)                     (* rename.rs:15-27 *)
  | DeleteProfile (p : Z)                    (* delete_profile.rs:18-41 *)
  | DeleteCluster (c : Z) (force : bool).    (* delete_cluster.rs:17-69 *)
Inductive result := Done | NotFound | InUse (l : list Z) | SaveFailed | NoConfig.
Definition saved (w : write) (g : config) (f : file) : file * result :=
  let (f', ok) := save w g f in (f', if ok then Done else SaveFailed).
(** [Add] saves twice; the two are taken as one here, as nothing but the type of the
    installation is between them. *)
Definition exec (x : command) (w : write) (f : file) : file * result :=
  match x with
  | Add n addr t i => saved w (set_install i (add_or_replace n addr t (load_or_new f))) f
  | Sync n addr t => saved w (add_or_replace n addr t (load_or_new f)) f
  | Switch p =>
      match load f with
      | None => (f, NoConfig)
      | Some g => let (g', ok) := set_current p g in if ok then saved w g' f else (f, NotFound)
      end
  | Rename a b =>
      match load f with
      | None => (f, NoConfig)
      | Some g => saved w (fst (rename_profile a b g)) f     (* whether it was there is not looked at *)
      end
  | DeleteProfile p =>
      match load f with
      | None => (f, NoConfig)
      | Some g => let (g', ok) := delete_profile p g in if ok then saved w g' f else (f, NotFound)
      end
  | DeleteCluster c force =>
      match load f with
      | None => (f, NoConfig)
      | Some g =>
          match get c (g_clusters g) with
          | None => (f, NotFound)
          | Some _ =>
              match (if force then [] else conflicts c g) with
              | [] => saved w (delete_cluster c g) f
              | l => (f, InUse l)
              end
          end
      end
  end.
Fixpoint exec_all (l : list (command * write)) (f : file) : file :=
  match l with [] => f | (x, w) :: t => exec_all t (fst (exec x w f)) end.

(** [ClusterTarget::load], extension-common/src/lib.rs:138-180: options for a profile,
    an address and TLS *)
Definition target (p addr : option Z) (t : tls) (f : file) : found :=
  match p, addr with
  | Some _, Some _ => Invalid
  | Some n, None =>
      match t with
      | Disabled => match cluster_with_profile n (load_or_new f) with Some c => Use c | None => NoCluster end
      | _ => Invalid
      end
  | None, Some a => Use (mkCluster a t false None)
  | None, None =>
      match t with
      | Disabled => match load f with Some g => current_cluster g | None => NoFile end
      | _ => Invalid
      end
  end.
