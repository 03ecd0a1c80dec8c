(** The index of packages: ids and releases. *)
From Coq Require Import ZArith List Bool.
Import ListNotations.
From Verif Require Import Base RegistryModel RegistrySpec RegistryProofs RegistryClaims.
Open Scope Z_scope.

(** An id that was read, is read again from the text it is printed as, if its registry does not end with two slashes. *)
Theorem C115_read_back : forall url semver, url_ok url -> semver_ok semver -> forall needed s i,
  parse_id url semver needed s = Some i -> (forall r, d_registry i = Some r -> one_slash r) ->
  parse_id url semver needed (print_id i) = Some i.
Proof. exact read_back. Qed.
Print Assumptions C115_read_back.
Example C115_read_back_example : url_ok some_url /\ semver_ok some_semver /\ parse_id some_url some_semver true an_id = Some parsed_id.
Proof. split; [exact some_url_ok | split; [exact some_semver_ok | reflexivity]]. Qed.
Example C115_read_back_slash : one_slash (https ++ [120; 47]).
Proof. exists (https ++ [120]). split; [reflexivity |]. intros r E. apply (f_equal (@rev Z)) in E. rewrite (rev_app_distr r [47]) in E. cbn in E. discriminate. Qed.

(** So is one that was made from parts that are fine; only the group "fluvio" is left out then. *)
Theorem C115_made : forall url semver needed i, semver_ok semver -> fine_id url semver i -> (needed = true -> d_version i <> None) ->
  parse_id url semver needed (print_id i) = Some (normal i).
Proof. exact reads. Qed.
Print Assumptions C115_made.
Example C115_made_example : fine_id some_url some_semver (mkPid None (Some fluvio) [98] (Some (Tag [99]))) /\
  normal (mkPid None (Some fluvio) [98] (Some (Tag [99]))) = mkPid None None [98] (Some (Tag [99])).
Proof.
  split; [| reflexivity]. split; [exact Logic.I |]. split; [intros g Hg; injection Hg as <-; exact fluvio_plain |].
  split; [split; intros [H|[]]; discriminate |]. split; [reflexivity |]. split; [split; intros [H|[]]; discriminate |].
  intros c [<-|[]]. reflexivity.
Qed.

(** The short text of an id is that of the package without the version. *)
Theorem C115_pretty : forall url semver i, semver_ok semver -> fine_id url semver i ->
  parse_id url semver false (pretty i) = Some (normal (without_version i)).
Proof. exact pretty_reads. Qed.
Print Assumptions C115_pretty.
Example C115_pretty_example : pretty parsed_id = https ++ [120; 47; 97; 47; 98] /\ fine_version some_semver (d_version parsed_id).
Proof. split; reflexivity. Qed.

(** A name alone, or with a version, is the package of that name in the default group of the default registry. *)
Theorem C115_short : forall url semver, semver_ok semver -> forall needed n o, plain n -> fine_version semver o -> (needed = true -> o <> None) ->
  parse_id url semver needed (n ++ match o with Some v => 58 :: print_ver v | None => [] end) = Some (mkPid None None n o).
Proof. exact short. Qed.
Print Assumptions C115_short.
Example C115_short_example : parse_id some_url some_semver false [98; 58; 49; 46; 50] = Some (mkPid None None [98] (Some (Semver [49; 46; 50]))).
Proof. reflexivity. Qed.

(** What is read has a registry that is a URL and ends with a slash, and a group and a name without slash and colon. *)
Theorem C115_fine : forall url semver, url_ok url -> forall needed s i, parse_id url semver needed s = Some i ->
  (forall r, d_registry i = Some r -> url r = Some r /\ exists r0, r = r0 ++ [47]) /\
  (forall g, d_group i = Some g -> plain g /\ g <> fluvio) /\ plain (d_name i) /\ fine_version semver (d_version i).
Proof. exact parsed_fine. Qed.
Print Assumptions C115_fine.
Example C115_fine_example : url_ok some_url /\ semver_ok some_semver /\ parse_id some_url some_semver true an_id = Some parsed_id.
Proof. split; [exact some_url_ok | split; [exact some_semver_ok | reflexivity]]. Qed.

(** Where a version is needed, exactly the ids with a version are read, as the same id. *)
Theorem C115_versioned : forall url semver, url_ok url -> forall s i,
  parse_id url semver true s = Some i <-> parse_id url semver false s = Some i /\ d_version i <> None.
Proof. exact versioned. Qed.
Print Assumptions C115_versioned.
Example C115_versioned_example : parse_id some_url some_semver false [98] <> None /\ parse_id some_url some_semver true [98] = None.
Proof. split; [discriminate | reflexivity]. Qed.

(** What follows the last colon, if no slash is in it, is the version. *)
Theorem C115_version : forall url semver needed s i, parse_id url semver needed s = Some i ->
  forall x v, s = x ++ 58 :: v -> ~ In 58 v -> ~ In 47 v -> exists w, d_version i = Some w /\ print_ver w = v.
Proof. exact slash_in_name. Qed.
Print Assumptions C115_version.
Example C115_version_example : an_id = (https ++ [120; 47; 97; 47; 98]) ++ 58 :: [49; 46; 50] /\ parse_id some_url some_semver false an_id = Some parsed_id.
Proof. split; reflexivity. Qed.

(** Two ids have the same unique id exactly if registry, group and name are the same, where those left out are the default. *)
Theorem C115_unique : forall url semver, url_ok url -> forall n1 s1 i n2 s2 j,
  parse_id url semver n1 s1 = Some i -> parse_id url semver n2 s2 = Some j -> (uid i = uid j <-> same_package i j).
Proof. exact unique. Qed.
Print Assumptions C115_unique.
Example C115_unique_example : exists i j, parse_id some_url some_semver false (fluvio ++ [47; 98]) = Some i /\ parse_id some_url some_semver false [98; 58; 49; 46; 50] = Some j /\
  i <> j /\ same_package i j.
Proof. eexists. eexists. split; [reflexivity |]. split; [reflexivity |]. split; [discriminate | repeat split]. Qed.

(** A registry that is not a URL is dropped without an error: the id is of the package of that group and name in the default registry. *)
Theorem C115_ignored : forall url semver, semver_ok semver -> forall r n o,
  url (r ++ [47]) = None -> ~ (exists r0, r = r0 ++ [47]) -> plain n -> fine_version semver o -> forall g, plain g -> g <> fluvio ->
  parse_id url semver false (r ++ [47] ++ g ++ [47] ++ n ++ match o with Some v => 58 :: print_ver v | None => [] end) = Some (mkPid None (Some g) n o).
Proof. exact ignored. Qed.
Print Assumptions C115_ignored.
Example C115_ignored_example : some_url ([120] ++ [47]) = None /\ parse_id some_url some_semver false [120; 47; 97; 47; 98] = Some (mkPid None (Some [97]) [98] None).
Proof. split; reflexivity. Qed.

(** So an id may name a registry and be read without one. *)
Theorem C115_registry_refuted : ~ (forall url semver, url_ok url -> semver_ok semver -> forall s i, parse_id url semver false s = Some i ->
  forall r, (exists q, s = r ++ [47] ++ q) -> In 47 r -> d_registry i <> None).
Proof. exact registry_refuted. Qed.
Print Assumptions C115_registry_refuted.

(** With two slashes at the end of the registry the id that is read back is another one. *)
Theorem C115_slashes_refuted : ~ (forall url semver, url_ok url -> semver_ok semver -> forall s i, parse_id url semver false s = Some i ->
  parse_id url semver false (print_id i) = Some i).
Proof. exact slashes_refuted. Qed.
Print Assumptions C115_slashes_refuted.

(** A tag may have a colon; the id made with it prints as a text that cannot be read. *)
Theorem C115_tag_refuted : ~ (forall semver v w, semver_ok semver -> parse_ver semver v = Some w -> forall url, url_ok url ->
  parse_id url semver true (print_id (mkPid None None [97] (Some w))) <> None).
Proof. exact tag_refuted. Qed.
Print Assumptions C115_tag_refuted.

(** The empty name is read as a name. *)
Theorem C115_empty_refuted : ~ (forall url semver, url_ok url -> semver_ok semver -> forall s i, parse_id url semver false s = Some i -> d_name i <> []).
Proof. exact empty_refuted. Qed.
Print Assumptions C115_empty_refuted.

(** A version is offered for a target exactly if it was published for it. *)
Theorem C116_listed : forall (V : Type) (le : V -> V -> bool), total_order le -> forall h v t,
  (exists r, In r (published V le h) /\ l_version V r = v /\ In t (l_targets V r)) <-> In (v, t) h.
Proof. exact (@listed). Qed.
Print Assumptions C116_listed.
Example C116_listed_example : total_order Z.leb /\ map (fun r => (l_version Z r, l_targets Z r)) (published Z Z.leb history) = [(1, [10; 11]); (2, [10]); (3, [10])].
Proof. split; [exact z_order | reflexivity]. Qed.

(** In whatever order they were published, the releases are listed from the oldest to the newest version, each version once. *)
Theorem C116_in_order : forall (V : Type) (le : V -> V -> bool), total_order le -> forall h, ascending le (map (l_version V) (published V le h)).
Proof. exact (@in_order). Qed.
Print Assumptions C116_in_order.
Example C116_in_order_example : total_order Z.leb /\ map (l_version Z) (published Z Z.leb history) = [1; 2; 3].
Proof. split; [exact z_order | reflexivity]. Qed.

(** A release has each target once, and is not yanked when it is published. *)
Theorem C116_once : forall (V : Type) (le : V -> V -> bool) h r, In r (published V le h) -> NoDup (l_targets V r) /\ l_yanked V r = false.
Proof. exact (@once). Qed.
Print Assumptions C116_once.
Example C116_once_example : map (l_targets Z) (published Z Z.leb (history ++ history)) = [[10; 11]; [10]; [10]].
Proof. reflexivity. Qed.

(** The latest release is the greatest version that was published; there is one as soon as something was. *)
Theorem C116_newest : forall (V : Type) (le : V -> V -> bool), total_order le -> forall h,
  match latest V (published V le h) with
  | Some r => (exists t, In (l_version V r, t) h) /\ forall v t, In (v, t) h -> le v (l_version V r) = true
  | None => h = [] end.
Proof. exact (@newest). Qed.
Print Assumptions C116_newest.
Example C116_newest_example : total_order Z.leb /\ option_map (l_version Z) (latest Z (published Z Z.leb history)) = Some 3.
Proof. split; [exact z_order | reflexivity]. Qed.

(** The latest release for a target is the greatest version published for it, without pre-releases unless they are wanted; it is missing only if there is none. *)
Theorem C116_newest_for : forall (V : Type) (le : V -> V -> bool) (special : V -> bool), total_order le -> forall h t pre,
  match latest_for V special t pre (published V le h) with
  | Some r => In (l_version V r, t) h /\ wanted special pre (l_version V r) /\ In t (l_targets V r) /\
              forall v, In (v, t) h -> wanted special pre v -> le v (l_version V r) = true
  | None => forall v, In (v, t) h -> ~ wanted special pre v end.
Proof. exact (@newest_for). Qed.
Print Assumptions C116_newest_for.
Example C116_newest_for_example : total_order Z.leb /\ map (fun q => option_map (l_version Z) (latest_for Z odd3 (fst q) (snd q) (published Z Z.leb history))) [(10, false); (10, true); (11, true); (12, true)] =
  [Some 2; Some 3; Some 1; None].
Proof. split; [exact z_order | reflexivity]. Qed.

(** The releases listed for a target are those published for it, from the oldest to the newest. *)
Theorem C116_of_target : forall (V : Type) (le : V -> V -> bool), total_order le -> forall h t,
  ascending le (map (l_version V) (for_target V t (published V le h))) /\
  forall v, In v (map (l_version V) (for_target V t (published V le h))) <-> In (v, t) h.
Proof. exact (@of_target). Qed.
Print Assumptions C116_of_target.
Example C116_of_target_example : total_order Z.leb /\ map (l_version Z) (for_target Z 10 (published Z Z.leb history)) = [1; 2; 3].
Proof. split; [exact z_order | reflexivity]. Qed.

(** A release that was yanked is still offered as the latest. *)
Theorem C116_yanked_refuted : ~ (forall l t pre r, ascending Z.leb (map (l_version Z) l) -> latest_for Z (fun _ => false) t pre l = Some r -> l_yanked Z r = false).
Proof. exact yanked_refuted. Qed.
Print Assumptions C116_yanked_refuted.

(** The releases of a package that is read from a file are not sorted: the latest is the last one in the file. *)
Theorem C116_file_refuted : ~ (forall (l : list (release Z)) r q, NoDup (map (l_version Z) l) -> latest Z l = Some r -> In q l -> l_version Z q <= l_version Z r).
Proof. exact file_refuted. Qed.
Print Assumptions C116_file_refuted.
