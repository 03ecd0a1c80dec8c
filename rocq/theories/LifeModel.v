(** The life of a local cluster: start, shutdown, resume, upgrade and delete.
    Source: crates/fluvio-cluster/src (cli/start/local.rs, cli/shutdown.rs,
    cli/resume.rs, cli/upgrade.rs, cli/delete.rs, start/local.rs, delete.rs,
    process/mod.rs, check/mod.rs, runtime/local/spu.rs).

    One user on one machine, commands one after the other.  Versions, directories
    and the other settings are numbers; directory 0 is the default one
    (start/local.rs:35-36).  The content of a data directory, metadata and records,
    is the list of what was done to the cluster while it ran with it; how that is
    kept is the subject of LocalModel and StorageModel.  The option --skip-checks is
    left out; killing processes and writing and deleting files succeed; steps on
    Kubernetes are left out. *)
Require Import List. Import ListNotations.
From Verif Require Import Base.

(** InstallationType, fluvio-extension-common/src/installation.rs:11-19 *)
Inductive kind := KLocal | KReadOnly | KLocalK8 | KK8 | KDocker | KCloud.
Definition kind_eq (a b : kind) : {a = b} + {a <> b}. decide equality. Defined.

(** LocalConfig, start/local.rs:51-187: version, data directory, number of SPUs,
    type, whether the profile is set, and the rest *)
Record conf := mkConf { f_version : Z; f_dir : Z; f_spus : Z; f_kind : kind; f_profile : bool; f_rest : Z }.
(** [evolve] and [build] with a version, start/local.rs:228-249 and cli/upgrade.rs:117-131.
    The launcher too is that of the new version. *)
Definition with_version (w : Z) (c : conf) : conf := mkConf w (f_dir c) (f_spus c) (f_kind c) (f_profile c) (f_rest c).

(** the local-config file, the data directories, the servers that run and with
    which config, the type of the cluster of the current profile *)
Record home := mkHome { l_conf : option conf; l_data : Z -> list Z; l_run : option conf; l_profile : option kind }.
Definition new_home (p : option kind) : home := mkHome None (fun _ => []) None p.

(** what becomes of the servers that are launched: all come up; the SC or an SPU is
    not seen in time; nothing is launched *)
Inductive luck := Fine | Unseen | Unlaunched.
(** done; refused before anything is changed; failed; nothing done here *)
Inductive answer := Done | Refused | Failed | Elsewhere.

Definition set_data (dir : Z) (l : list Z) (d : Z -> list Z) : Z -> list Z := fun x => if x =? dir then l else d x.
Definition stop (s : home) : home := mkHome (l_conf s) (l_data s) None (l_profile s).

(** [LocalClusterCheck], check/mod.rs:689-713: no server runs *)
Definition not_running (s : home) : bool := match l_run s with None => true | Some _ => false end.
(** [CleanLocalClusterCheck], check/mod.rs:716-742: there is no local-config *)
Definition clean (s : home) : bool := match l_conf s with None => true | Some _ => false end.
(** [LocalClusterVersionCheck], check/mod.rs:745-778 *)
Definition version_fits (w : Z) (s : home) : bool := match l_conf s with Some c => f_version c =? w | None => false end.

(** [install_only], start/local.rs:449-535: the profile is set before servers are
    launched, the config is saved at the end *)
Definition install (c : conf) (k : luck) (s : home) : home * answer :=
  let p := if f_profile c then Some (f_kind c) else l_profile s in
  match k with
  | Unlaunched => (mkHome (l_conf s) (l_data s) (l_run s) p, Failed)
  | Unseen => (mkHome (l_conf s) (l_data s) (Some c) p, Failed)
  | Fine => (mkHome (Some c) (l_data s) (Some c) p, Done)
  end.

Inductive cmd :=
| Start (c : conf) (k : luck)
| Shutdown
| Resume (w : Z) (k : luck)
| Upgrade (w : Z) (asked : option kind) (readable : bool)
| Delete
| Switch (p : option kind)
| Work (d : Z).

(** the types of cluster that run as processes of this machine *)
Definition here (k : kind) : bool := match k with KLocal | KReadOnly | KLocalK8 => true | _ => false end.

Definition life_step (s : home) (e : cmd) : home * answer :=
  match e with
  | Start c k =>
      (* start/local.rs:396-446 [preflight_check], [install]; check/mod.rs:831-834.
         Starting a cluster with metadata in Kubernetes is left out. *)
      match f_kind c with
      | KLocal | KReadOnly => if not_running s && clean s then install c k s else (s, Refused)
      | KLocalK8 => (s, Elsewhere)
      | _ => (s, Refused)
      end
  | Shutdown =>
      (* cli/shutdown.rs:21-76 *)
      match l_profile s with
      | None => (s, Refused)
      | Some k => if here k then (stop s, Done) else match k with KCloud => (s, Refused) | _ => (s, Elsewhere) end
      end
  | Resume w k =>
      (* cli/resume.rs:19-91 *)
      match l_profile s with
      | Some KLocal | Some KReadOnly =>
          if not_running s && version_fits w s then
            match l_conf s with Some c => install c k s | None => (s, Refused) end
          else (s, Refused)
      | _ => (s, Refused)
      end
  | Upgrade w asked readable =>
      (* cli/upgrade.rs:37-139; [readable]: the metadata in the default directory can
         be read.  The user confirms. *)
      match l_profile s with
      | None => (s, Refused)
      | Some k =>
          if match asked with Some a => if kind_eq a k then true else false | None => true end then
            if here k then
              match readable, l_conf s with
              | true, Some c => (mkHome (Some (with_version w c)) (l_data s) None (l_profile s), Done)
              | _, _ => (stop s, Failed)
              end
            else match k with KK8 => (s, Elsewhere) | _ => (s, Refused) end
          else (s, Refused)
      end
  | Delete =>
      (* cli/delete.rs:73-101, delete.rs:142-160 [uninstall_local], process/mod.rs:14-112 *)
      match l_profile s with
      | None => (s, Refused)
      | Some k =>
          if here k then (mkHome None (set_data 0 [] (l_data s)) None (l_profile s), Done)
          else match k with KK8 => (s, Elsewhere) | _ => (s, Refused) end
      end
  | Switch p => (mkHome (l_conf s) (l_data s) (l_run s) p, Done)
  | Work d =>
      (* what clients do *)
      match l_run s with
      | Some c => (mkHome (l_conf s) (set_data (f_dir c) (l_data s (f_dir c) ++ [d]) (l_data s)) (l_run s) (l_profile s), Done)
      | None => (s, Refused)
      end
  end.
Definition lived (s : home) (l : list cmd) : home := fold_left (fun s e => fst (life_step s e)) l s.

(** The id and the ports of the SPU number [i], runtime/local/spu.rs:82-102; numbers
    of 16 bits, which wrap around in a release build *)
Definition spu_id (i : Z) : Z := (i + 5001) mod 2 ^ 16.
Definition spu_port (i : Z) : Z := (9010 + i * 10) mod 2 ^ 16.
Definition spu_private (i : Z) : Z := (spu_port i + 1) mod 2 ^ 16.
