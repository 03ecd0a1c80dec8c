(** Names of packages on the hub. *)
From Coq Require Import ZArith List Bool.
Import ListNotations.
From Verif Require Import Base RegistryModel HubNameModel HubNameSpec HubNameProofs.
Open Scope Z_scope.

(** The check of names passes exactly if group and name are not empty and have only lower case letters, digits, ':', '-' and '_'. *)
Theorem C117_checked : forall p, naming_check p = true <-> good_names p.
Proof. exact checked. Qed.
Print Assumptions C117_checked.
Example C117_checked_example : naming_check ab_c = true /\ naming_check (mkPm [97] [66] v1) = false.
Proof. split; reflexivity. Qed.

(** The name of a package that passed the check is cut back into its group, name and version. *)
Theorem C117_split : forall p, good_names p -> ~ In 64 (h_version p) -> cli_split (pkg_name p) = Some (h_group p, h_name p, h_version p).
Proof. exact split_name. Qed.
Print Assumptions C117_split.
Example C117_split_example : good_names ab_c /\ pkg_name ab_c = [97; 45; 98; 47; 99; 64; 49; 46; 48].
Proof. split; [split; apply goods; (reflexivity || discriminate) | reflexivity]. Qed.

(** It is downloaded from where it was uploaded to, SmartModules and connectors. *)
Theorem C117_same_place : forall base p, good_names p -> ~ In 64 (h_version p) -> cli_url base (pkg_name p) = Some (push_url base p).
Proof. exact same_place. Qed.
Print Assumptions C117_same_place.
Example C117_same_place_example : good_names ab_c /\ cli_url [104] (pkg_name ab_c) = Some [104; 47; 97; 45; 98; 47; 99; 47; 49; 46; 48].
Proof. split; [split; apply goods; (reflexivity || discriminate) | reflexivity]. Qed.

(** Different packages and versions are at different places. *)
Theorem C117_apart : forall base p q, good_names p -> good_names q -> ~ In 47 (h_version p) -> ~ In 47 (h_version q) ->
  push_url base p = push_url base q -> p = q.
Proof. exact apart. Qed.
Print Assumptions C117_apart.
Example C117_apart_example : good_names ab_c /\ good_names a_bc /\ push_url [104] ab_c <> push_url [104] a_bc.
Proof. split; [split; apply goods; (reflexivity || discriminate) | split; [split; apply goods; (reflexivity || discriminate) | discriminate]]. Qed.

(** A name without a group is looked for without a group. *)
Theorem C117_group_less : forall base n v, ~ In 47 n -> ~ In 64 v -> cli_url base (n ++ [64] ++ v) = Some (base ++ [47] ++ n ++ [47] ++ v).
Proof. exact group_less. Qed.
Print Assumptions C117_group_less.
Example C117_group_less_example : cli_url [104] [97; 64; 49] = Some [104; 47; 97; 47; 49].
Proof. reflexivity. Qed.

(** A name is refused exactly if it has no version. *)
Theorem C117_needs_version : forall base s, cli_url base s = None <-> ~ In 64 s.
Proof. exact needs_version. Qed.
Print Assumptions C117_needs_version.
Example C117_needs_version_example : cli_url [104] [97; 47; 98] = None.
Proof. reflexivity. Qed.

(** The path of the stored object made from the name of the package is the one made from its description. *)
Theorem C117_object : forall p, good_names p -> plain_version (h_version p) -> object_path (pkg_name p) = Some (obj_name p).
Proof. exact object. Qed.
Print Assumptions C117_object.
Example C117_object_example : object_path (pkg_name ab_c) = Some ([97; 45; 98; 47; 99; 45; 49; 46; 48] ++ ipkg).
Proof. reflexivity. Qed.

(** Different packages and versions are stored under different paths, if versions begin with a number and a dot. *)
Theorem C117_object_apart : forall p q, good_names p -> good_names q -> dotted (h_version p) -> dotted (h_version q) -> obj_name p = obj_name q -> p = q.
Proof. exact object_apart. Qed.
Print Assumptions C117_object_apart.
Example C117_object_apart_example : good_names a_bc /\ dotted (h_version a_bc).
Proof. split; [split; apply goods; (reflexivity || discriminate) | exact v1_dotted]. Qed.

(** The file a package is assembled in tells its name and version. *)
Theorem C117_file_apart : forall p q, good_names p -> good_names q -> dotted (h_version p) -> dotted (h_version q) ->
  packagefile p = packagefile q -> h_name p = h_name q /\ h_version p = h_version q.
Proof. exact packagefile_apart. Qed.
Print Assumptions C117_file_apart.
Example C117_file_apart_example : packagefile ab_c = [99; 45; 49; 46; 48] ++ ipkg.
Proof. reflexivity. Qed.

(** A package is downloaded to a file named with the group too. *)
Theorem C117_downloaded_as : forall p, good_names p -> ~ In 64 (h_version p) -> cli_file (pkg_name p) = Some (h_group p ++ [45] ++ packagefile p).
Proof. exact downloaded_as. Qed.
Print Assumptions C117_downloaded_as.
Example C117_downloaded_as_example : good_names a_bc /\ cli_file (pkg_name a_bc) = Some ([97; 45; 98; 45; 99; 45; 49; 46; 48] ++ ipkg).
Proof. split; [split; apply goods; (reflexivity || discriminate) | reflexivity]. Qed.

(** A package is uploaded only from a file named after it, with a name of allowed characters. *)
Theorem C117_sent : forall file p, push_sent file p = true <-> (forall c, In c (h_name p) -> good_char c) /\ file = packagefile p.
Proof. exact sent. Qed.
Print Assumptions C117_sent.
Example C117_sent_example : push_sent (packagefile ab_c) ab_c = true /\ push_sent (packagefile a_bc) ab_c = false.
Proof. split; reflexivity. Qed.

(** What the compiler makes of a package is looked for under its name with '_' for '-'. *)
Theorem C117_built : forall s t, transformed s = Some t <-> (forall c, In c s -> good_char c) /\ t = map (fun c => if c =? 45 then 95 else c) s.
Proof. exact transform. Qed.
Print Assumptions C117_built.
Example C117_built_example : transformed [97; 45; 98] = Some [97; 95; 98] /\ transformed [65] = None.
Proof. split; reflexivity. Qed.

(** Any text is cut at the last '@' and the first '/'; further slashes that follow are dropped. *)
Theorem C117_cut : forall s o p v, cli_split s = Some (o, p, v) <->
  ~ In 64 v /\ ((s = p ++ [64] ++ v /\ o = [] /\ ~ In 47 p) \/
                (exists k, s = o ++ repeat 47 (S k) ++ p ++ [64] ++ v /\ ~ In 47 o /\ forall t, p <> 47 :: t)).
Proof. exact cut_exactly. Qed.
Print Assumptions C117_cut.
Example C117_cut_example : cli_split [97; 47; 47; 98; 47; 99; 64; 100; 64; 49] = Some ([97], [98; 47; 99; 64; 100], [49]).
Proof. reflexivity. Qed.

(** A path is made of exactly the names with one slash and one '@' after it. *)
Theorem C117_object_exactly : forall s t, object_path s = Some t <->
  exists p, s = pkg_name p /\ t = obj_name p /\ ~ In 47 (h_group p) /\ ~ In 47 (h_name p) /\ ~ In 64 (h_name p) /\ plain_version (h_version p).
Proof. exact object_exactly. Qed.
Print Assumptions C117_object_exactly.
Example C117_object_exactly_example : object_path [97; 47; 98; 47; 99; 64; 49] = None /\ object_path [97; 47; 98] = None /\ object_path [97; 47; 98; 64; 49; 64; 50] = None.
Proof. repeat split. Qed.

(** Different packages may be downloaded to the same file: a-b/c@1.0 and a/b-c@1.0. *)
Theorem C117_download_refuted : ~ (forall p q, good_names p -> good_names q -> dotted (h_version p) -> dotted (h_version q) ->
  plain_version (h_version p) -> plain_version (h_version q) -> cli_file (pkg_name p) = cli_file (pkg_name q) -> p = q).
Proof. exact download_refuted. Qed.
Print Assumptions C117_download_refuted.

(** The version is not checked; with others, different packages may have the same path. *)
Theorem C117_object_refuted : ~ (forall p q, good_names p -> good_names q -> plain_version (h_version p) -> plain_version (h_version q) -> obj_name p = obj_name q -> p = q).
Proof. exact object_refuted. Qed.
Print Assumptions C117_object_refuted.

(** The upload checks less than the check of names: not the group, nor that the name is not empty. *)
Theorem C117_sent_refuted : ~ (forall file p, push_sent file p = true -> good_names p).
Proof. exact sent_refuted. Qed.
Print Assumptions C117_sent_refuted.

(** Packages a-b and a_b are looked for in the same file. *)
Theorem C117_built_refuted : ~ (forall s s' t, transformed s = Some t -> transformed s' = Some t -> s = s').
Proof. exact transform_refuted. Qed.
Print Assumptions C117_built_refuted.
