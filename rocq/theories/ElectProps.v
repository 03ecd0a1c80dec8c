(** C75: which partitions have a leader when the controller has nothing left to do. *)
From Verif Require Import Base ControlModel ControlSpec HealthModel ElectModel ElectSpec ElectProofs ElectClaims.

Theorem C75_led : forall s p, eruns prompt no_cluster s -> idle s -> In p (e_parts s) ->
  led s p \/ (is_readable (pt_status p) = false /\ ~ could_lead s p).
Proof. exact prompt_led. Qed.
Print Assumptions C75_led.
Example C75_led_ex : eruns prompt no_cluster (run_of ex_good) /\ idle (run_of ex_good) /\
  map (fun p => (pt_key p, ps_leader (pt_spec p), is_readable (pt_status p))) (e_parts (run_of ex_good)) = [(0, 2, true); (1, 3, false)] /\
  e_spus (run_of ex_good) = [(1, SOnline); (2, SOnline); (3, SOffline)].
Proof. exact good_run. Qed.

Theorem C75_settles : forall s, eruns plausible no_cluster s ->
  exists s', eruns (fun s a => internal a /\ prompt s a) s s' /\ idle s'.
Proof. exact settles_idle. Qed.
Print Assumptions C75_settles.
Example C75_settles_ex : eruns race_ok no_cluster (run_of ex_race).
Proof. exact race_run. Qed.

Theorem C75_resync : forall s s1 s2 p p' st,
  eruns plausible no_cluster s -> e_todo s = [] -> e_acc s = [] -> e_queue s = [] ->
  estep s EResync = Some s1 -> eruns (fun _ a => internal a) s1 s2 -> idle s2 ->
  In p (e_parts s) -> In (ps_leader (pt_spec p), st) (e_spus s) -> st <> SInit ->
  In p' (e_parts s2) -> pt_key p' = pt_key p ->
  led s2 p' \/ (st_res (pt_status p') <> POnline /\ ~ could_lead s2 p').
Proof. exact resync_led. Qed.
Print Assumptions C75_resync.
Example C75_resync_ex : exists s1 s2, estep (run_of ex_race) EResync = Some s1 /\
  eruns (fun _ a => internal a) s1 s2 /\ idle s2 /\ map (fun p => ps_leader (pt_spec p)) (e_parts s2) = [3].
Proof. exact repair_run. Qed.

Theorem C75_race_refuted : exists s p, eruns race_ok no_cluster s /\ idle s /\ neglected s p /\ is_online (pt_status p) = true /\
  forall s', eruns (fun _ a => internal a) s s' -> neglected s' p.
Proof. exact neglected_race. Qed.
Print Assumptions C75_race_refuted.

Theorem C75_storage_refuted : exists s p, eruns storage_ok no_cluster s /\ idle s /\ neglected s p /\
  forall s', eruns (fun _ a => internal a) s s' -> neglected s' p.
Proof. exact neglected_storage. Qed.
Print Assumptions C75_storage_refuted.

Theorem C75_restart_refuted : exists s p, eruns restart_ok no_cluster s /\ idle s /\ neglected s p /\ is_online (pt_status p) = true /\
  forall s', eruns (fun _ a => internal a) s s' -> neglected s' p.
Proof. exact neglected_restart. Qed.
Print Assumptions C75_restart_refuted.

Theorem C75_deleted_refuted : exists s p, eruns deleted_ok no_cluster s /\ idle s /\ neglected s p /\ is_online (pt_status p) = true /\
  forall s', eruns (fun _ a => internal a \/ a = EResync) s s' -> neglected s' p.
Proof. exact neglected_deleted. Qed.
Print Assumptions C75_deleted_refuted.
