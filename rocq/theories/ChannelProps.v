(** Release channels. *)
From Coq Require Import ZArith List Bool.
Import ListNotations.
From Verif Require Import Base ChannelModel ChannelSpec ChannelProofs.
Open Scope Z_scope.

(** After a switch that was done, whatever else is created, deleted and run, commands are run by the release in the place of that channel, which is told the channel, its extensions and its strategy. *)
Theorem C121_runs_switched : forall m c n l i v b, ans m (Switch 0 c n) = Done -> Forall usual l -> Forall (leaves c) l ->
  known (after m (Switch 0 c n)) c = Some i -> let m' := steps (after m (Switch 0 c n)) l in
  h_at m' (i_bin i) = Some (Rel v) -> ans m' (Run b false) = Ran v c (i_ext i) (i_tag i).
Proof. exact runs_switched. Qed.
Print Assumptions C121_runs_switched.
Example C121_runs_switched_example : ans started (Switch 0 Latest (Got 4 5)) = Done /\ Forall usual [Create 0 (Tag 7) None None None (Got 0 0); Delete 0 Stable] /\ Forall (leaves Latest) [Create 0 (Tag 7) None None None (Got 0 0); Delete 0 Stable] /\
  h_at (steps (after started (Switch 0 Latest (Got 4 5))) [Create 0 (Tag 7) None None None (Got 0 0); Delete 0 Stable]) (Bin Latest) = Some (Rel 5).
Proof. repeat split; repeat constructor; discriminate. Qed.

(** A switch makes the channel the current one, with the places it had, or those of a built-in one. *)
Theorem C121_switched : forall m c n, ans m (Switch 0 c n) = Done -> let m' := after m (Switch 0 c n) in
  usable m' /\ current m' = Some c /\ known m' c = match known m c with Some i => Some i | None => built_in c end /\ known m' c <> None.
Proof. exact switched. Qed.
Print Assumptions C121_switched.
Example C121_switched_example : ans installed (Switch 0 Latest (Got 4 5)) = Done.
Proof. reflexivity. Qed.

(** What is run is what is in the place of the current channel. *)
Theorem C121_run_current : forall m b c i, current m = Some c -> known m c = Some i ->
  after m (Run b false) = m /\
  ans m (Run b false) = match h_at m (i_bin i) with Some (Rel v) => Ran v c (i_ext i) (i_tag i) | Some Front => Loop | _ => Quiet end.
Proof. exact run_current. Qed.
Print Assumptions C121_run_current.
Example C121_run_current_example : ans with_tag (Run None false) = Ran 7 (Tag 7) (BinExt (Tag 7)) ByVersion.
Proof. reflexivity. Qed.

(** If nothing is known of the current channel, commands fail. *)
Theorem C121_run_none : forall m b u, usable m -> (match current m with Some c => known m c = None | None => True end) -> ans m (Run b u) = Failed /\ after m (Run b u) = m.
Proof. exact run_none. Qed.
Print Assumptions C121_run_none.
Example C121_run_none_example : usable (after started (Delete 0 Stable)) /\ current (after started (Delete 0 Stable)) = Some Stable /\ known (after started (Delete 0 Stable)) Stable = None.
Proof. split; [eexists; reflexivity | repeat split]. Qed.

(** So they do if the config cannot be read. *)
Theorem C121_run_broken : forall m b u, h_conf m 0 = Broken -> ans m (Run b u) = Failed.
Proof. exact run_broken. Qed.
Print Assumptions C121_run_broken.
Example C121_run_broken_example : h_conf (after started (Spoil 0)) 0 = Broken.
Proof. reflexivity. Qed.

(** An update is passed on in the three known channels and refused in others. *)
Theorem C121_run_update : forall m b c i, current m = Some c -> known m c = Some i ->
  ans m (Run b true) = if match c with Stable | Latest | Dev => true | _ => false end then ans m (Run b false) else Unsupported.
Proof. exact run_update. Qed.
Print Assumptions C121_run_update.
Example C121_run_update_example : ans with_tag (Run None true) = Unsupported.
Proof. reflexivity. Qed.

(** The first command of all makes the stable channel the current one. *)
Theorem C121_first_run : forall m, h_conf m 0 = Missing -> let m' := after m (Run None false) in current m' = Some Stable /\ known m' Stable = built_in Stable /\ (forall c, c <> Stable -> known m' c = None) /\ h_at m' = h_at m.
Proof. exact first_run. Qed.
Print Assumptions C121_first_run.
Example C121_first_run_example : h_conf installed 0 = Missing.
Proof. reflexivity. Qed.

(** The installer may name another channel or a version. *)
Theorem C121_boot_run : forall m c, h_conf m 0 = Missing -> let m' := after m (Run (Some c) false) in
  match c with
  | Dev | Word _ => ans m (Run (Some c) false) = Failed /\ m' = m
  | _ => current m' = Some c /\ known m' c = Some (mkInfo (Bin c) (Ext c) (match c with Latest | Loud true _ => ByBoth | _ => ByVersion end))
  end.
Proof. exact boot_run. Qed.
Print Assumptions C121_boot_run.
Example C121_boot_run_example : current (after installed (Run (Some (Tag 7)) false)) = Some (Tag 7).
Proof. reflexivity. Qed.

(** A switch to a channel that is known is done, and changes no channel and no file. *)
Theorem C121_switch_known : forall m c n, known m c <> None -> let m' := after m (Switch 0 c n) in
  ans m (Switch 0 c n) = Done /\ current m' = Some c /\ (forall d, known m' d = known m d) /\ h_at m' = h_at m.
Proof. exact switch_known. Qed.
Print Assumptions C121_switch_known.
Example C121_switch_known_example : known with_tag Stable <> None.
Proof. discriminate. Qed.

(** A switch to a channel that is not known, and not built in, is refused and changes nothing. *)
Theorem C121_switch_refused : forall m c n f, known m c = None -> f = 0 -> built_in c = None -> ans m (Switch f c n) = Failed /\ after m (Switch f c n) = m.
Proof. exact switch_refused. Qed.
Print Assumptions C121_switch_refused.
Example C121_switch_refused_example : known started (Word 1) = None /\ built_in (Word 1) = None.
Proof. repeat split. Qed.

(** The first switch to a built-in channel adds it and downloads its newest release, if there is nothing in its place; it is switched to even if that fails. *)
Theorem C121_switch_new : forall m c n i, known m c = None -> built_in c = Some i -> let m' := after m (Switch 0 c n) in
  current m' = Some c /\ known m' c = Some i /\ (forall d, d <> c -> known m' d = known m d) /\
  (ans m (Switch 0 c n) = Failed <-> c <> Dev /\ h_at m (i_bin i) = None /\ n = NoVersion) /\
  (ans m (Switch 0 c n) = Done \/ ans m (Switch 0 c n) = Failed) /\
  (forall p, p <> i_bin i -> h_at m' p = h_at m p) /\
  h_at m' (i_bin i) = match h_at m (i_bin i), n, c with None, Got v _, Stable => Some (Rel v) | None, Got _ w, Latest => Some (Rel w) | x, _, _ => x end.
Proof. exact switch_new. Qed.
Print Assumptions C121_switch_new.
Example C121_switch_new_example : known started Latest = None /\ h_at (after started (Switch 0 Latest (Got 4 5))) (Bin Latest) = Some (Rel 5).
Proof. repeat split. Qed.

(** A channel that is created has the places asked for; the others and the current one stay; a binary that is there is kept, and otherwise the release of the name is downloaded if it is published. *)
Theorem C121_create_done : forall m c b e s n, let k := Create 0 c b e s n in ans m k = Done ->
  known (after m k) c = Some (asked c b e s) /\ (forall d, d <> c -> known (after m k) d = known m d) /\ current (after m k) = current m /\
  (forall p, p <> i_bin (asked c b e s) -> h_at (after m k) p = h_at m p) /\
  (forall x, h_at m (i_bin (asked c b e s)) = Some x -> h_at (after m k) (i_bin (asked c b e s)) = Some x) /\
  (h_at m (i_bin (asked c b e s)) = None -> forall v, h_at (after m k) (i_bin (asked c b e s)) = Some (Rel v) <-> found_release c n v).
Proof. exact create_done. Qed.
Print Assumptions C121_create_done.
Example C121_create_done_example : ans started (Create 0 (Tag 7) (Some (At 1)) None None (Got 0 0)) = Done /\ h_at (after started (Create 0 (Tag 7) (Some (At 1)) None None (Got 0 0))) (At 1) = Some (Rel 7).
Proof. repeat split. Qed.

(** One that is not created changes nothing. *)
Theorem C121_create_failed : forall m f c b e s n, let k := Create f c b e s n in ans m k <> Done -> ans m k = Failed /\ after m k = m.
Proof. exact create_failed. Qed.
Print Assumptions C121_create_failed.
Example C121_create_failed_example : ans started (Create 0 (Word 1) None None None (Got 0 0)) = Failed.
Proof. reflexivity. Qed.

(** It is created exactly if its binary is there, or its name is a version, or stable or latest in any case and a newest version is found. *)
Theorem C121_create_iff : forall m f c b e s n, ans m (Create f c b e s n) = Done <->
  h_at m (i_bin (asked c b e s)) <> None \/ match c with Tag _ => True | Stable | Latest | Loud _ _ => n <> NoVersion | Dev | Word _ => False end.
Proof. exact create_iff. Qed.
Print Assumptions C121_create_iff.
Example C121_create_iff_example : ans (after started (Put (At 1) (Some (Rel 3)))) (Create 0 (Word 1) (Some (At 1)) None None NoVersion) = Done.
Proof. reflexivity. Qed.

(** Deleting a channel removes it and, if it says so, its binary and extensions, and nothing else. *)
Theorem C121_delete_known : forall m c i, known m c = Some i -> let m' := after m (Delete 0 c) in
  known m' c = None /\ (forall d, d <> c -> known m' d = known m d) /\ current m' = current m /\
  (forall p, p <> i_bin i -> p <> i_ext i -> h_at m' p = h_at m p) /\
  (ans m (Delete 0 c) = Done -> h_at m' (i_bin i) = None /\ h_at m' (i_ext i) = None).
Proof. exact delete_known. Qed.
Print Assumptions C121_delete_known.
Example C121_delete_known_example : known with_tag Stable = built_in Stable /\ ans (steps with_tag [Put (Bin Stable) (Some (Rel 1)); Put (Ext Stable) (Some Dir)]) (Delete 0 Stable) = Done.
Proof. repeat split. Qed.

(** Deleting one that is not known changes nothing. *)
Theorem C121_delete_unknown : forall m c, known m c = None -> ans m (Delete 0 c) = NotFound /\ after m (Delete 0 c) = m.
Proof. exact delete_unknown. Qed.
Print Assumptions C121_delete_unknown.
Example C121_delete_unknown_example : known started (Tag 7) = None.
Proof. reflexivity. Qed.

(** It is said to be done exactly if both were there. *)
Theorem C121_delete_iff : forall m c i, known m c = Some i -> i_bin i <> i_ext i ->
  (ans m (Delete 0 c) = Done <-> (h_at m (i_bin i) <> None /\ h_at m (i_bin i) <> Some Dir) /\ h_at m (i_ext i) = Some Dir).
Proof. exact delete_iff. Qed.
Print Assumptions C121_delete_iff.
Example C121_delete_iff_example : known started Stable = Some (mkInfo (Bin Stable) (Ext Stable) ByVersion) /\ Bin Stable <> Ext Stable.
Proof. split; [reflexivity | discriminate]. Qed.

(** Only a switch changes the current channel; only creating, switching to or deleting a channel changes what is known of it; the config stays readable. *)
Theorem C121_history : forall m l, Forall usual l -> usable m -> usable (steps m l) /\ (Forall no_switch l -> current (steps m l) = current m) /\ forall c, Forall (leaves c) l -> known (steps m l) c = known m c.
Proof. exact history. Qed.
Print Assumptions C121_history.
Example C121_history_example : usable started /\ Forall usual [Switch 0 Latest (Got 4 5); Delete 0 Latest; Run None true].
Proof. split; [eexists; reflexivity | repeat constructor]. Qed.

(** Channels created without places of their own share none, with each other or with built-in ones. *)
Theorem C121_default_apart : forall c d s t b e g, c <> d -> let i := asked c None None s in let j := asked d None None t in
  i_bin i <> i_bin j /\ i_ext i <> i_ext j /\ i_bin i <> i_ext j /\ i_bin i <> i_ext i /\
  (built_in d = Some (mkInfo b e g) -> i_bin i <> b /\ i_ext i <> e /\ i_bin i <> e /\ i_ext i <> b).
Proof. exact default_apart. Qed.
Print Assumptions C121_default_apart.
Example C121_default_apart_example : Tag 7 <> Stable.
Proof. discriminate. Qed.

(** Names are compared as they are written. *)
Theorem C121_names : forall a b, chan_eqb a b = true <-> a = b.
Proof. exact chan_eq. Qed.
Print Assumptions C121_names.
Example C121_names_example : chan_eqb Stable (Loud false 1) = false.
Proof. reflexivity. Qed.

(** A command may run nothing and not fail: if the binary of the channel is missing. *)
Theorem C121_quiet_refuted : ~ (forall l b, ans (steps installed l) (Run b false) <> Failed -> exists v c e s, ans (steps installed l) (Run b false) = Ran v c e s).
Proof. exact quiet_refuted. Qed.
Print Assumptions C121_quiet_refuted.

(** A switch that fails may have switched. *)
Theorem C121_failed_switch_refuted : ~ (forall l c n, ans (steps installed l) (Switch 0 c n) = Failed -> current (after (steps installed l) (Switch 0 c n)) = current (steps installed l)).
Proof. exact failed_switch_refuted. Qed.
Print Assumptions C121_failed_switch_refuted.

(** If it is then repeated it is done, but the binary is still missing. *)
Theorem C121_retry_refuted : ~ (forall l c n n' b, ans (steps installed l) (Switch 0 c n) = Failed -> ans (after (steps installed l) (Switch 0 c n)) (Switch 0 c (Got n' n')) = Done ->
  ans (after (after (steps installed l) (Switch 0 c n)) (Switch 0 c (Got n' n'))) (Run b false) <> Quiet).
Proof. exact retry_refuted. Qed.
Print Assumptions C121_retry_refuted.

(** In the dev channel the front end runs itself. *)
Theorem C121_dev_refuted : ~ (forall l n b, ans (steps installed l) (Switch 0 Dev n) = Done -> ans (after (steps installed l) (Switch 0 Dev n)) (Run b false) <> Loop).
Proof. exact dev_refuted. Qed.
Print Assumptions C121_dev_refuted.

(** Deleting the dev channel deletes the front end. *)
Theorem C121_delete_dev_refuted : ~ (forall l c, h_at (steps installed l) Own = Some Front -> h_at (after (steps installed l) (Delete 0 c)) Own = Some Front).
Proof. exact delete_dev_refuted. Qed.
Print Assumptions C121_delete_dev_refuted.

(** The current channel can be deleted, and then commands fail. *)
Theorem C121_delete_current_refuted : ~ (forall l c b, ans (steps installed l) (Delete 0 c) <> NotFound -> ans (after (steps installed l) (Delete 0 c)) (Run b false) <> Failed).
Proof. exact delete_current_refuted. Qed.
Print Assumptions C121_delete_current_refuted.

(** A delete that fails has removed the channel. *)
Theorem C121_delete_failed_refuted : ~ (forall l c, ans (steps installed l) (Delete 0 c) = Failed -> known (after (steps installed l) (Delete 0 c)) c = known (steps installed l) c).
Proof. exact delete_failed_refuted. Qed.
Print Assumptions C121_delete_failed_refuted.

(** Creating a channel in another config file that is new writes the default one instead, and the channels in it are lost. *)
Theorem C121_other_file_refuted : ~ (forall l f c b e s n d, f <> 0 -> known (steps installed l) d <> None -> known (after (steps installed l) (Create f c b e s n)) d <> None).
Proof. exact other_file_refuted. Qed.
Print Assumptions C121_other_file_refuted.

(** If a channel is created before the first command of another kind, no channel is the current one and commands fail. *)
Theorem C121_create_first_refuted : ~ (forall c b e s n r, ans installed (Create 0 c b e s n) = Done -> ans (after installed (Create 0 c b e s n)) (Run r false) <> Failed).
Proof. exact create_first_refuted. Qed.
Print Assumptions C121_create_first_refuted.

(** A channel may be created without a binary. *)
Theorem C121_create_missing_refuted : ~ (forall l c b e s n, ans (steps installed l) (Create 0 c b e s n) = Done -> h_at (after (steps installed l) (Create 0 c b e s n)) (i_bin (asked c b e s)) <> None).
Proof. exact create_missing_refuted. Qed.
Print Assumptions C121_create_missing_refuted.

(** A channel that is created has its extensions elsewhere than the built-in one of the name. *)
Theorem C121_extensions_refuted : ~ (forall c s b, built_in c = Some b -> i_ext (asked c None None s) = i_ext b).
Proof. exact extensions_refuted. Qed.
Print Assumptions C121_extensions_refuted.
