(** The theorems on the version manager. *)
From Verif Require Import Base.
Require Import List. Import ListNotations.
From Verif Require Import FvmModel FvmSpec FvmProofs FvmClaims.

(** * C105 *)
Theorem C105_install : forall digest c l h, wf h -> h_settings h <> Broken -> sound digest l ->
  says digest (Install c (Some l)) h = Done /\ installed digest c l (after digest (Install c (Some l)) h) /\
  in_use c (after digest (Install c (Some l)) h) /\
  forall c', c' <> c -> dir c' (after digest (Install c (Some l)) h) = dir c' h.
Proof. exact install_done. Qed.
Print Assumptions C105_install.
Example C105_install_case : wf home2 /\ h_settings home2 <> Broken /\ sound same set3 /\
  current (after same (Install Latest (Some set3)) home2) = Some (Some (Latest, 1)).
Proof. repeat split; try (apply wf_history, wf_fresh); try (vm_compute; discriminate); apply sound_set3. Qed.

Theorem C105_refused : forall digest c f h,
  match f with Some l => exists a, In a l /\ fetched digest a = None | None => True end ->
  says digest (Install c f) h = Failed /\ dirs (after digest (Install c f) h) = dirs h /\
  h_bins (after digest (Install c f) h) = h_bins h /\ h_settings (after digest (Install c f) h) = h_settings h.
Proof. exact refused. Qed.
Print Assumptions C105_refused.
Example C105_refused_case : exists a, In a [one 0 2 [20]; mkArtifact 7 2 (Some [21]) [22]] /\ fetched same a = None.
Proof. exists (mkArtifact 7 2 (Some [21]) [22]). split; [right; now left | reflexivity]. Qed.

Theorem C105_twice_refuted : exists l h, wf h /\ h_settings h <> Broken /\ (forall a, In a l -> fetched same a <> None) /\
  says same (Install Stable (Some l)) h = Failed /\ file Stable 0 h = Some [10; 11] /\
  file Stable 0 (after same (Install Stable (Some l)) h) = None.
Proof. exact twice_refuted. Qed.
Print Assumptions C105_twice_refuted.

Theorem C105_files : forall digest x h n k c f b, wf h ->
  file c f (cut n k (fst (changes digest x h)) h) = Some b -> file c f h = Some b \/ published digest (offered x) f b.
Proof. exact verified_files. Qed.
Print Assumptions C105_files.
Example C105_files_case : file Stable 0 (cut 3 0 (fst (changes same (Install Stable (Some set1)) fresh)) fresh) = Some [10; 11] /\
  file Stable 7 (cut 3 0 (fst (changes same (Install Stable (Some set1)) fresh)) fresh) = None.
Proof. vm_compute. split; reflexivity. Qed.

Theorem C105_binaries : forall digest x h n k f b, wf h ->
  bin f (cut n k (fst (changes digest x h)) h) = Some b ->
  bin f h = Some b \/
  exists whole j, b = firstn j whole /\ ((exists c, file c f h = Some whole) \/ published digest (offered x) f whole).
Proof. exact verified_bins. Qed.
Print Assumptions C105_binaries.
Example C105_binaries_case : bin 0 (cut 6 1 (fst (changes same (Install Stable (Some set1)) fresh)) fresh) = Some [10].
Proof. vm_compute. reflexivity. Qed.

Theorem C105_others : forall digest x c n k h c', x = Switch c \/ x = Uninstall c \/ (exists f, x = Install c f) -> c' <> c ->
  dir c' (cut n k (fst (changes digest x h)) h) = dir c' h.
Proof. exact others. Qed.
Print Assumptions C105_others.
Example C105_others_case : dir Latest home2 <> None /\
  fst (changes same (Install Stable (Some set3)) home2) <> [] /\ fst (changes same (Uninstall Stable) home2) <> [].
Proof. vm_compute. repeat split; discriminate. Qed.

Theorem C105_again : forall digest c l h n k, wf h -> sound digest l ->
  let h' := cut n k (fst (changes digest (Install c (Some l)) h)) h in
  h_settings h' <> Broken ->
  says digest (Install c (Some l)) h' = Done /\ installed digest c l (after digest (Install c (Some l)) h') /\
  in_use c (after digest (Install c (Some l)) h').
Proof. exact again. Qed.
Print Assumptions C105_again.
Example C105_again_case : let h' := cut 5 0 (fst (changes same (Install Stable (Some set1)) fresh)) fresh in
  h_settings h' <> Broken /\ current h' = Some None /\ file Stable 0 h' = Some [10; 11] /\ bin 0 h' = None.
Proof. vm_compute. repeat split. discriminate. Qed.

Theorem C105_torn_refuted : exists l n k, sound same l /\
  let h := cut n k (fst (changes same (Install Stable (Some l)) fresh)) fresh in
  forall xs x,
  current (history same xs h) = None /\
  match x with
  | Install _ _ | Update _ => says same x (history same xs h) = Failed
  | Switch _ => says same x (history same xs h) <> Done
  | Uninstall _ => True
  end.
Proof. exact torn_refuted. Qed.
Print Assumptions C105_torn_refuted.

Theorem C105_switch : forall digest c h fs m, wf h -> h_settings h <> Broken -> open c h = Some (fs, m) ->
  says digest (Switch c) h = Done /\ h_versions (after digest (Switch c) h) = h_versions h /\ in_use c (after digest (Switch c) h) /\
  current (after digest (Switch c) h) = Some (Some (m_channel m, m_version m)) /\
  forall f, file c f h = None -> bin f (after digest (Switch c) h) = bin f h.
Proof. exact switch_done. Qed.
Print Assumptions C105_switch.
Example C105_switch_case : (exists fs m, open Latest home2 = Some (fs, m)) /\ current home2 = Some (Some (Stable, 1)) /\
  bin 0 home2 = Some [10; 11] /\ bin 0 (after same (Switch Latest) home2) = Some [20].
Proof. vm_compute. repeat split. eexists. eexists. reflexivity. Qed.

Theorem C105_missing : forall digest c h, dir c h = None -> after digest (Switch c) h = h /\ says digest (Switch c) h = Warned.
Proof. exact switch_missing. Qed.
Print Assumptions C105_missing.
Theorem C105_missing_refuted : says same (Switch Latest) home1 <> Failed /\
  current (after same (Switch Latest) home1) = Some (Some (Stable, 1)).
Proof. exact switch_refuted. Qed.
Print Assumptions C105_missing_refuted.

Theorem C105_uninstall : forall digest c h, (exists fs m, open c h = Some (fs, m)) ->
  says digest (Uninstall c) h = Done /\ dir c (after digest (Uninstall c) h) = None /\
  (forall c', c' <> c -> dir c' (after digest (Uninstall c) h) = dir c' h) /\
  h_bins (after digest (Uninstall c) h) = h_bins h /\ h_settings (after digest (Uninstall c) h) = h_settings h.
Proof. exact uninstall_done. Qed.
Print Assumptions C105_uninstall.
Example C105_uninstall_case : exists fs m, open Stable home1 = Some (fs, m).
Proof. vm_compute. eexists. eexists. reflexivity. Qed.

Theorem C105_uninstalled_refuted :
  let h := history same [Install Stable (Some set1); Uninstall Stable] fresh in
  dir Stable h = None /\ current h = Some (Some (Stable, 1)) /\ bin 0 h = Some [10; 11] /\
  says same (Update (Some set1)) h = Failed.
Proof. exact uninstalled_refuted. Qed.
Print Assumptions C105_uninstalled_refuted.

Theorem C105_active : forall digest l c v, Forall once l -> let h := history digest l fresh in
  current h = Some (Some (c, v)) ->
  dir c h = None \/
  exists fs m, open c h = Some (fs, m) /\ m_channel m = c /\ m_version m = v /\ in_use c h.
Proof. exact active_history. Qed.
Print Assumptions C105_active.
Example C105_active_case : let l := [Install Latest (Some set2); Install Stable (Some set1); Switch Latest; Update (Some set3)] in
  current (history same l fresh) = Some (Some (Latest, 1)) /\ bin 7 (history same l fresh) = Some [32].
Proof. vm_compute. split; reflexivity. Qed.

Theorem C105_stale_refuted :
  let h := history same [Install Stable (Some set1); Install Stable (Some set2)] fresh in
  (exists fs, open Stable h = Some (fs, mkManifest Stable 2 (Some [(0, 2)]))) /\
  bin 7 h = Some [12] /\ file Stable 7 h = Some [12] /\
  let h2 := history same [Install Latest (Some set1); Install Stable (Some set2)] fresh in
  file Stable 7 h2 = None /\ current h2 = Some (Some (Stable, 2)) /\ bin 7 h2 = Some [12].
Proof. exact stale_refuted. Qed.
Print Assumptions C105_stale_refuted.

Theorem C105_list : forall digest l, Forall once l -> let h := history digest l fresh in
  h_versions h <> None ->
  exists ms a, listed h = Some (ms, a) /\
    (forall m, In m ms \/ a = Some m <-> exists c fs, open c h = Some (fs, m)) /\
    (forall m, a = Some m -> exists v, current h = Some (Some (m_channel m, v))) /\
    (forall m v, In m ms -> current h <> Some (Some (m_channel m, v))).
Proof. exact list_history. Qed.
Print Assumptions C105_list.
Example C105_list_case : listed home2 =
  Some ([mkManifest Latest 2 (Some [(0, 2)])], Some (mkManifest Stable 1 (Some [(0, 1); (7, 1)]))).
Proof. vm_compute. reflexivity. Qed.

Theorem C105_list_refuted :
  let h0 := history same [Install Latest (Some set2)] fresh in
  let h := cut 2 0 (fst (changes same (Install Stable (Some set1)) h0)) h0 in
  (exists fs m, open Latest h = Some (fs, m)) /\ listed h = None /\ says same (Uninstall Stable) h = Failed /\
  says same (Install Stable (Some set1)) h = Done.
Proof. exact list_refuted. Qed.
Print Assumptions C105_list_refuted.

Theorem C105_order : forall a b c, ~ mixed a b -> ~ mixed b c -> ~ mixed a c ->
  (channel_cmp a b = Eq <-> a = b) /\ channel_cmp b a = CompOpp (channel_cmp a b) /\
  (channel_cmp a b = Lt -> channel_cmp b c = Lt -> channel_cmp a c = Lt).
Proof. exact (fun a b c N1 N2 N3 => conj (cmp_eq a b) (conj (cmp_anti a b N1) (cmp_trans a b c N1 N2 N3))). Qed.
Print Assumptions C105_order.
Example C105_order_case : ~ mixed (Tag 1) Latest /\ channel_cmp (Tag 1) (Tag 2) = Lt /\ channel_cmp (Tag 2) Latest = Lt /\
  channel_cmp Latest Stable = Lt.
Proof. simpl. tauto. Qed.
Theorem C105_order_refuted : exists a b, channel_cmp a b = Lt /\ channel_cmp b a = Lt.
Proof. exact order_refuted. Qed.
Print Assumptions C105_order_refuted.

(** * C106 *)
Theorem C106_newer : forall digest l h c v, wf h -> h_versions h <> None -> current h = Some (Some (c, v)) -> sound digest l ->
  (c = Stable /\ v < set_version l \/ c = Latest /\ v <> set_version l) ->
  says digest (Update (Some l)) h = Done /\ installed digest c l (after digest (Update (Some l)) h) /\
  in_use c (after digest (Update (Some l)) h).
Proof. exact update_newer. Qed.
Print Assumptions C106_newer.
Example C106_newer_case : h_versions home1 <> None /\ current home1 = Some (Some (Stable, 1)) /\ 1 < set_version set2 /\
  current (after same (Update (Some set2)) home1) = Some (Some (Stable, 2)).
Proof. vm_compute. repeat split; discriminate. Qed.

Theorem C106_patched : forall digest l h fs cs, wf h -> sound digest l -> current h = Some (Some (Stable, set_version l)) -> in_use Stable h ->
  open Stable h = Some (fs, mkManifest Stable (set_version l) (Some cs)) ->
  let h' := after digest (Update (Some l)) h in
  says digest (Update (Some l)) h = Done /\ current h' = current h /\ in_use Stable h' /\
  (forall a, In a l -> recorded (a_name a) cs <> Some (a_version a) ->
     file Stable (a_name a) h' = fetched digest a /\ bin (a_name a) h' = fetched digest a) /\
  (forall f, (forall a, In a l -> a_name a = f -> recorded f cs = Some (a_version a)) -> file Stable f h' = file Stable f h).
Proof. exact patched_done. Qed.
Print Assumptions C106_patched.
Example C106_patched_case : current home1 = Some (Some (Stable, set_version set3)) /\
  (exists fs, open Stable home1 = Some (fs, mkManifest Stable (set_version set3) (Some [(0, 1); (7, 1)]))) /\
  bin 7 home1 = Some [12] /\ bin 7 (after same (Update (Some set3)) home1) = Some [32].
Proof. vm_compute. repeat split. eexists. reflexivity. Qed.

Theorem C106_settled : forall digest l h fs cs, wf h -> sound digest l -> current h = Some (Some (Stable, set_version l)) ->
  open Stable h = Some (fs, mkManifest Stable (set_version l) (Some cs)) ->
  (forall a, In a l -> recorded (a_name a) cs <> None) ->
  changes digest (Update (Some l)) (after digest (Update (Some l)) h) = ([], Done).
Proof. exact settled. Qed.
Print Assumptions C106_settled.
Example C106_settled_case : fst (changes same (Update (Some set3)) home1) <> [] /\
  forall a, In a set3 -> recorded (a_name a) [(0, 1); (7, 1)] <> None.
Proof. split; [vm_compute; discriminate|]. intros a [E | [E | []]]; subst a; discriminate. Qed.

Theorem C106_new_refuted : forall digest l h fs cs a, wf h -> sound digest l -> current h = Some (Some (Stable, set_version l)) ->
  open Stable h = Some (fs, mkManifest Stable (set_version l) (Some cs)) ->
  In a l -> recorded (a_name a) cs = None ->
  exists fs' cs', open Stable (after digest (Update (Some l)) h) = Some (fs', mkManifest Stable (set_version l) (Some cs')) /\
    recorded (a_name a) cs' = None /\ In a (diff cs' l).
Proof. exact never_settled. Qed.
Print Assumptions C106_new_refuted.
Example C106_new_refuted_case : let h := after same (Update (Some set4)) home1 in
  sound same set4 /\ recorded 8 [(0, 1); (7, 1)] = None /\ file Stable 8 h = Some [13] /\
  fst (changes same (Update (Some set4)) h) <> [].
Proof. split; [exact sound_set4|]. vm_compute. repeat split. discriminate. Qed.

Theorem C106_keeps : forall digest xs l c v, Forall once xs -> NoDup (map a_name l) -> let h := history digest xs fresh in
  current h = Some (Some (c, v)) ->
  exists v', current (after digest (Update (Some l)) h) = Some (Some (c, v')) /\ (c = Stable -> v <= v').
Proof. exact no_downgrade. Qed.
Print Assumptions C106_keeps.
Example C106_keeps_case : current (history same [Install Stable (Some set2)] fresh) = Some (Some (Stable, 2)) /\
  current (after same (Update (Some set1)) (history same [Install Stable (Some set2)] fresh)) = Some (Some (Stable, 2)).
Proof. vm_compute. split; reflexivity. Qed.

Theorem C106_up_to_date : forall digest l h c v, current h = Some (Some (c, v)) ->
  (c = Stable /\ set_version l < v \/ c = Latest /\ v = set_version l) ->
  changes digest (Update (Some l)) h = ([], Done).
Proof. exact up_to_date. Qed.
Print Assumptions C106_up_to_date.
Example C106_up_to_date_case : set_version set1 < 2.
Proof. reflexivity. Qed.

Theorem C106_static : forall digest f h c v, h_settings h = Set_ (Some c) v -> static c = true ->
  changes digest (Update f) h = ([], Warned).
Proof. exact update_static. Qed.
Print Assumptions C106_static.
Example C106_static_case : current (history same [Install (Tag 1) (Some set1)] fresh) = Some (Some (Tag 1, 1)).
Proof. vm_compute. reflexivity. Qed.

Theorem C106_others : forall digest c v f n k h c', h_settings h = Set_ (Some c) v -> c' <> c ->
  dir c' (cut n k (fst (changes digest (Update f) h)) h) = dir c' h.
Proof. exact others_update. Qed.
Print Assumptions C106_others.
Example C106_others_case : h_settings home2 = Set_ (Some Stable) (Some 1) /\ fst (changes same (Update (Some set3)) home2) <> [].
Proof. vm_compute. split; [reflexivity | discriminate]. Qed.

Theorem C106_contents_refuted : forall digest l h fs, current h = Some (Some (Stable, set_version l)) ->
  open Stable h = Some (fs, mkManifest Stable (set_version l) None) -> changes digest (Update (Some l)) h = ([], Failed).
Proof. exact no_contents. Qed.
Print Assumptions C106_contents_refuted.
Example C106_contents_refuted_case :
  let h := mkHome (Some [(Stable, mkDir [(0, [10; 11])] (Holds (mkManifest Stable 1 None)))]) [(0, [10; 11])] (Set_ (Some Stable) (Some 1)) in
  wf h /\ current h = Some (Some (Stable, set_version set3)) /\
  says same (Install Stable (Some set3)) h = Done.
Proof.
  repeat split; try (vm_compute; reflexivity).
  - repeat constructor. intros [].
  - intros c d [E | []]. inversion E; subst. repeat constructor. intros [].
Qed.

Theorem C105_version :
  (forall before a after, (forall b, In b before -> a_name b <> 0) -> a_name a = 0 ->
     set_version (before ++ a :: after) = a_version a) /\
  (forall l, (forall b, In b l -> a_name b <> 0) -> set_version l = 0).
Proof. exact set_version_is. Qed.
Print Assumptions C105_version.
Example C105_version_case :
  let l := [mkArtifact 3 9 None []; mkArtifact 0 7 None []; mkArtifact 0 8 None []] in
  (forall b, In b (firstn 1 l) -> a_name b <> 0) /\ set_version l = 7 /\ set_version (firstn 1 l) = 0.
Proof. vm_compute. repeat split. intros b [<- | []]. discriminate. Qed.
