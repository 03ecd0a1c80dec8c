(** The life of a local cluster. *)
From Coq Require Import ZArith List Bool.
Import ListNotations.
From Verif Require Import Base LifeModel LifeSpec LifeProofs.
Open Scope Z_scope.

(** Whatever commands are given and whatever fails, what was done is kept as long as the cluster is not deleted. *)
Theorem C118_kept : forall s l dir, no_delete l -> extends (l_data s dir) (l_data (lived s l) dir).
Proof. exact kept. Qed.
Print Assumptions C118_kept.
Example C118_kept_example : l_data (lived used [Shutdown; Upgrade 2 None true; Resume 2 Fine; Work 12]) 0 = [10; 11; 12].
Proof. repeat split. Qed.

(** Starting, shutting down, resuming, upgrading and switching profiles change no data. *)
Theorem C118_only_work : forall s e dir, e <> Delete -> ~ working e -> l_data (after s e) dir = l_data s dir.
Proof. exact only_work. Qed.
Print Assumptions C118_only_work.
Example C118_only_work_example : ~ working Shutdown /\ l_data (after used Shutdown) 0 = [10; 11].
Proof. split; [intros (d & H); discriminate | reflexivity]. Qed.

(** A running cluster keeps its data in its own directory. *)
Theorem C118_work : forall s d c, running c s -> ans s (Work d) = Done /\ l_data (after s (Work d)) (f_dir c) = l_data s (f_dir c) ++ [d] /\
  (forall dir, dir <> f_dir c -> l_data (after s (Work d)) dir = l_data s dir).
Proof. exact work. Qed.
Print Assumptions C118_work.
Example C118_work_example : running plain_conf used.
Proof. repeat split. Qed.

(** Deleting a cluster touches no directory but the default one. *)
Theorem C118_delete_only : forall s dir, dir <> 0 -> l_data (after s Delete) dir = l_data s dir.
Proof. exact delete_only. Qed.
Print Assumptions C118_delete_only.
Example C118_delete_only_example : l_data (lived fresh_home [Start moved_conf Fine; Work 10; Delete]) 5 = [10].
Proof. repeat split. Qed.

(** A command that is refused changes nothing. *)
Theorem C118_refused : forall s e, ans s e = Refused \/ ans s e = Elsewhere -> after s e = s.
Proof. exact refused. Qed.
Print Assumptions C118_refused.
Example C118_refused_example : ans used (Start plain_conf Fine) = Refused.
Proof. repeat split. Qed.

(** A cluster is started only if no servers run and none is installed. *)
Theorem C118_start_iff : forall s c k, ans s (Start c k) = Done \/ ans s (Start c k) = Failed <-> local_conf c /\ l_run s = None /\ l_conf s = None.
Proof. exact start_iff. Qed.
Print Assumptions C118_start_iff.
Example C118_start_iff_example : ans fresh_home (Start plain_conf Fine) = Done /\ ans fresh_home (Start plain_conf Unseen) = Failed.
Proof. repeat split. Qed.

(** While one runs or is installed, also when shut down, starting is refused. *)
Theorem C118_start_refused : forall s c k, l_run s <> None \/ l_conf s <> None -> f_kind c <> KLocalK8 -> ans s (Start c k) = Refused.
Proof. exact start_refused. Qed.
Print Assumptions C118_start_refused.
Example C118_start_refused_example : l_conf (after used Shutdown) <> None /\ ans (after used Shutdown) (Start moved_conf Fine) = Refused.
Proof. split; [discriminate | reflexivity]. Qed.

(** A start whose servers come up runs the config, saves it and makes it the current profile. *)
Theorem C118_started : forall s c, local_conf c -> l_run s = None -> l_conf s = None ->
  ans s (Start c Fine) = Done /\ running c (after s (Start c Fine)) /\ installed c (after s (Start c Fine)) /\
  (f_profile c = true -> l_profile (after s (Start c Fine)) = Some (f_kind c)) /\
  (forall dir, l_data (after s (Start c Fine)) dir = l_data s dir).
Proof. exact started. Qed.
Print Assumptions C118_started.
Example C118_started_example : local_conf plain_conf /\ l_run fresh_home = None /\ l_conf fresh_home = None.
Proof. repeat split. now left. Qed.

(** After any commands, servers run with the config that is saved, if one is. *)
Theorem C118_one : forall p l c c', running c (lived (new_home p) l) -> installed c' (lived (new_home p) l) -> c = c'.
Proof. exact one_config. Qed.
Print Assumptions C118_one.
Example C118_one_example : running plain_conf used /\ installed plain_conf used.
Proof. repeat split. Qed.

(** Shutting down stops the servers and leaves config, profile and data. *)
Theorem C118_shutdown : forall s, on_local s -> ans s Shutdown = Done /\ l_run (after s Shutdown) = None /\ l_conf (after s Shutdown) = l_conf s /\
  l_profile (after s Shutdown) = l_profile s /\ forall dir, l_data (after s Shutdown) dir = l_data s dir.
Proof. exact shut. Qed.
Print Assumptions C118_shutdown.
Example C118_shutdown_example : on_local used.
Proof. now left. Qed.

(** It is done exactly if the current profile is of a cluster on this machine. *)
Theorem C118_shutdown_iff : forall s, ans s Shutdown = Done <-> on_machine s.
Proof. exact shutdown_iff. Qed.
Print Assumptions C118_shutdown_iff.
Example C118_shutdown_iff_example : on_machine used.
Proof. now left. Qed.

(** A cluster is resumed only if it is shut down, and with the version it was installed or upgraded with. *)
Theorem C118_resume_iff : forall s w k, ans s (Resume w k) <> Refused <->
  on_local s /\ l_run s = None /\ exists c, installed c s /\ f_version c = w.
Proof. exact resume_iff. Qed.
Print Assumptions C118_resume_iff.
Example C118_resume_iff_example : ans (after used Shutdown) (Resume 1 Fine) = Done /\ ans (after used Shutdown) (Resume 2 Fine) = Refused /\ ans used (Resume 1 Fine) = Refused.
Proof. repeat split. Qed.

(** A cluster that is shut down and resumed runs with the same config and data. *)
Theorem C118_resumed : forall s c, on_local s -> running c s -> installed c s ->
  let s' := after (after s Shutdown) (Resume (f_version c) Fine) in
  running c s' /\ installed c s' /\ forall dir, l_data s' dir = l_data s dir.
Proof. exact round_trip. Qed.
Print Assumptions C118_resumed.
Example C118_resumed_example : on_local used /\ running plain_conf used /\ installed plain_conf used.
Proof. repeat split. now left. Qed.

(** An upgrade is done exactly if the cluster is on this machine, is installed, no other type is asked for, and the metadata can be read. *)
Theorem C118_upgrade_iff : forall s w a r, ans s (Upgrade w a r) = Done <->
  on_machine s /\ (a = None \/ a = l_profile s) /\ r = true /\ l_conf s <> None.
Proof. exact upgrade_iff. Qed.
Print Assumptions C118_upgrade_iff.
Example C118_upgrade_iff_example : ans used (Upgrade 2 (Some KLocal) true) = Done /\ ans used (Upgrade 2 (Some KK8) true) = Refused.
Proof. repeat split. Qed.

(** It changes the version in the config only, and stops the servers. *)
Theorem C118_upgrade_done : forall s w a r, ans s (Upgrade w a r) = Done ->
  exists c, installed c s /\ installed (with_version w c) (after s (Upgrade w a r)) /\ l_run (after s (Upgrade w a r)) = None /\
    l_profile (after s (Upgrade w a r)) = l_profile s /\ forall dir, l_data (after s (Upgrade w a r)) dir = l_data s dir.
Proof. exact upgrade_done. Qed.
Print Assumptions C118_upgrade_done.
Example C118_upgrade_done_example : ans used (Upgrade 2 None true) = Done.
Proof. repeat split. Qed.

(** After an upgrade the cluster is resumed with the new version, with all data, and with no other version. *)
Theorem C118_upgraded : forall s w a r, on_local s -> ans s (Upgrade w a r) = Done ->
  let s' := after s (Upgrade w a r) in
  exists c, installed c s /\ running (with_version w c) (after s' (Resume w Fine)) /\
  (forall dir, l_data (after s' (Resume w Fine)) dir = l_data s dir) /\
  forall v k, v <> w -> ans s' (Resume v k) = Refused.
Proof. exact upgraded. Qed.
Print Assumptions C118_upgraded.
Example C118_upgraded_example : on_local used /\ ans used (Upgrade 2 None true) = Done.
Proof. split; [now left | reflexivity]. Qed.

(** The config of an upgraded cluster is the old one but for the version. *)
Theorem C118_version : forall w c, f_version (with_version w c) = w /\ f_dir (with_version w c) = f_dir c /\ f_spus (with_version w c) = f_spus c /\
  f_kind (with_version w c) = f_kind c /\ f_profile (with_version w c) = f_profile c /\ f_rest (with_version w c) = f_rest c.
Proof. exact version_only. Qed.
Print Assumptions C118_version.
Example C118_version_example : with_version 2 moved_conf = mkConf 2 5 1 KLocal true 7.
Proof. repeat split. Qed.

(** An upgrade that is not refused stops the cluster, also if it fails. *)
Theorem C118_upgrade_stops : forall s w a r, ans s (Upgrade w a r) = Done \/ ans s (Upgrade w a r) = Failed -> l_run (after s (Upgrade w a r)) = None.
Proof. exact upgrade_stops. Qed.
Print Assumptions C118_upgrade_stops.
Example C118_upgrade_stops_example : l_run used <> None /\ ans used (Upgrade 2 None false) = Failed.
Proof. split; [discriminate | reflexivity]. Qed.

(** If it fails, config and data are as before. *)
Theorem C118_upgrade_failed : forall s w a r, ans s (Upgrade w a r) = Failed -> l_conf (after s (Upgrade w a r)) = l_conf s /\ forall dir, l_data (after s (Upgrade w a r)) dir = l_data s dir.
Proof. exact upgrade_failed. Qed.
Print Assumptions C118_upgrade_failed.
Example C118_upgrade_failed_example : ans used (Upgrade 2 None false) = Failed /\ ans (after used (Upgrade 2 None false)) (Resume 1 Fine) = Done.
Proof. repeat split. Qed.

(** Only a cluster on this machine is deleted from it. *)
Theorem C118_delete_iff : forall s, ans s Delete = Done <-> on_machine s.
Proof. exact delete_iff. Qed.
Print Assumptions C118_delete_iff.
Example C118_delete_iff_example : ans used Delete = Done /\ ans (after used (Switch (Some KCloud))) Delete = Refused.
Proof. repeat split. Qed.

(** After deleting, no server runs, the default directory is empty and a cluster can be started. *)
Theorem C118_deleted : forall s, ans s Delete = Done -> l_run (after s Delete) = None /\ l_conf (after s Delete) = None /\ l_data (after s Delete) 0 = [] /\
  forall c k, local_conf c -> ans (after s Delete) (Start c k) <> Refused.
Proof. exact deleted. Qed.
Print Assumptions C118_deleted.
Example C118_deleted_example : ans used Delete = Done.
Proof. repeat split. Qed.

(** With a profile of the cloud none of these commands touches the cluster on this machine. *)
Theorem C118_elsewhere : forall s e, l_profile s = Some KCloud ->
  e = Shutdown \/ e = Delete \/ (exists w a r, e = Upgrade w a r) \/ (exists w k, e = Resume w k) -> ans s e = Refused /\ after s e = s.
Proof. exact elsewhere. Qed.
Print Assumptions C118_elsewhere.
Example C118_elsewhere_example : l_profile (after used (Switch (Some KCloud))) = Some KCloud.
Proof. repeat split. Qed.

(** The current profile is changed only by switching, starting and resuming. *)
Theorem C118_profile_kept : forall s e, (forall p, e <> Switch p) -> (forall c k, e <> Start c k) -> (forall w k, e <> Resume w k) -> l_profile (after s e) = l_profile s.
Proof. exact profile_kept. Qed.
Print Assumptions C118_profile_kept.
Example C118_profile_kept_example : l_profile (after used Delete) = Some KLocal.
Proof. repeat split. Qed.

(** A start that is not refused sets the profile, unless told not to, even if it fails. *)
Theorem C118_profile_set : forall s c k, ans s (Start c k) = Done \/ ans s (Start c k) = Failed ->
  l_profile (after s (Start c k)) = if f_profile c then Some (f_kind c) else l_profile s.
Proof. exact profile_set. Qed.
Print Assumptions C118_profile_set.
Example C118_profile_set_example : ans fresh_home (Start plain_conf Unlaunched) = Failed.
Proof. repeat split. Qed.

(** A start that launched nothing can be repeated. *)
Theorem C118_unlaunched : forall s c, ans s (Start c Unlaunched) = Failed -> let s' := after s (Start c Unlaunched) in
  l_run s' = None /\ l_conf s' = None /\ (forall dir, l_data s' dir = l_data s dir) /\ forall k, ans s' (Start c k) <> Refused.
Proof. exact nothing_launched. Qed.
Print Assumptions C118_unlaunched.
Example C118_unlaunched_example : ans fresh_home (Start plain_conf Unlaunched) = Failed.
Proof. repeat split. Qed.

(** A start whose servers were not seen in time leaves them running with nothing installed; it can be repeated only after a shutdown. *)
Theorem C118_failed_start : forall s c, ans s (Start c Unseen) = Failed -> f_profile c = true ->
  let s' := after s (Start c Unseen) in
  running c s' /\ l_conf s' = None /\ (forall c' k, local_conf c' -> ans s' (Start c' k) = Refused) /\ (forall w k, ans s' (Resume w k) = Refused) /\
  forall c' k, local_conf c' -> ans (after s' Shutdown) (Start c' k) <> Refused.
Proof. exact failed_start. Qed.
Print Assumptions C118_failed_start.
Example C118_failed_start_example : ans fresh_home (Start plain_conf Unseen) = Failed /\ f_profile plain_conf = true.
Proof. repeat split. Qed.

(** The SPUs of a local cluster have different ids and ports, up to 5653 of them. *)
Theorem C118_ports : forall i j, 0 <= i < 5653 -> 0 <= j < 5653 -> i <> j ->
  spu_id i <> spu_id j /\ spu_port i <> spu_port j /\ spu_port i <> spu_private j /\ spu_private i <> spu_private j /\ 9010 <= spu_port i.
Proof. exact ports_apart. Qed.
Print Assumptions C118_ports.
Example C118_ports_example : spu_id 0 = 5001 /\ spu_port 1 = 9020 /\ spu_private 1 = 9021.
Proof. repeat split. Qed.

(** Switching the profile leaves the cluster running. *)
Theorem C118_switch : forall s p, ans s (Switch p) = Done /\ l_profile (after s (Switch p)) = p /\ l_run (after s (Switch p)) = l_run s /\ l_conf (after s (Switch p)) = l_conf s.
Proof. exact switched. Qed.
Print Assumptions C118_switch.
Example C118_switch_example : l_run (after used (Switch (Some KCloud))) = Some plain_conf.
Proof. repeat split. Qed.

(** A resume that fails leaves the cluster installed, so that it can be shut down and resumed again. *)
Theorem C118_resume_tried : forall s w k c, installed c s -> ans s (Resume w k) <> Refused ->
  installed c (after s (Resume w k)) /\ l_run (after s (Resume w k)) = (match k with Unlaunched => None | _ => Some c end) /\
  l_profile (after s (Resume w k)) = (if f_profile c then Some (f_kind c) else l_profile s) /\ (ans s (Resume w k) = Done <-> k = Fine).
Proof. exact resume_tried. Qed.
Print Assumptions C118_resume_tried.
Example C118_resume_tried_example : ans (after used Shutdown) (Resume 1 Unseen) = Failed /\ ans (lived used [Shutdown; Resume 1 Unseen; Shutdown]) (Resume 1 Fine) = Done.
Proof. repeat split. Qed.

(** The SPUs have the ids from 5001 on, and the ports 9010 and 9011, 9020 and 9021 and so on. *)
Theorem C118_numbers : forall i, 0 <= i < 5652 -> spu_id i = 5001 + i /\ spu_port i = 9010 + 10 * i /\ spu_private i = 9011 + 10 * i.
Proof. exact numbers. Qed.
Print Assumptions C118_numbers.
Example C118_numbers_example : spu_id 2 = 5003 /\ spu_port 2 = 9030 /\ spu_private 2 = 9031.
Proof. repeat split. Qed.

(** Deleting a cluster with a directory of its own leaves its data; a new cluster with that directory has it. *)
Theorem C118_delete_refuted : ~ (forall s c, local_conf c -> ans s Delete = Done -> l_data (after (after s Delete) (Start c Fine)) (f_dir c) = []).
Proof. exact delete_refuted. Qed.
Print Assumptions C118_delete_refuted.

(** It empties the default directory instead, though the cluster does not use it. *)
Theorem C118_delete_other_refuted : ~ (forall s c, running c s -> l_profile s = Some KLocal -> ans s Delete = Done -> l_data (after s Delete) 0 = l_data s 0 \/ f_dir c = 0).
Proof. exact delete_other_refuted. Qed.
Print Assumptions C118_delete_other_refuted.

(** A start that failed cannot just be repeated. *)
Theorem C118_start_again_refuted : ~ (forall s c, l_run s = None -> l_conf s = None -> ans s (Start c Unseen) = Failed -> ans (after s (Start c Unseen)) (Start c Fine) <> Refused).
Proof. exact start_again_refuted. Qed.
Print Assumptions C118_start_again_refuted.

(** A cluster started without setting the profile cannot be shut down. *)
Theorem C118_shutdown_refuted : ~ (forall l c, running c (lived fresh_home l) -> ans (lived fresh_home l) Shutdown = Done).
Proof. exact shutdown_refuted. Qed.
Print Assumptions C118_shutdown_refuted.

(** With more SPUs ports are given twice. *)
Theorem C118_ports_refuted : ~ (forall i j, 0 <= i < 65535 - 5001 -> 0 <= j < 65535 - 5001 -> i <> j -> spu_port i <> spu_port j).
Proof. exact ports_refuted. Qed.
Print Assumptions C118_ports_refuted.
