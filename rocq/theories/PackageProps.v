(** C83: what a SmartModule name is resolved to.  C84: publishing, listing,
    deleting and checking SmartModules by name. *)
From Coq Require Import String.
From Verif Require Import Base NameModel PackageModel PackageSpec PackageProofs PackageClaims.

(** ** C83 *)

(** A full name runs the module that was last published under it, if no plain
    module has the name of the package. *)
Theorem C83_own : forall h p, good h -> well_named (Package p) -> meant h (Plain (p_name p)) = None ->
  resolve (name_of (Package p)) (registry_after h) = option_map (mkM (Some p)) (meant h (Package p)).
Proof. exact resolve_own. Qed.
Print Assumptions C83_own.
Example C83_own_ex : good a_history /\ well_named (pk "acme" "my-filter" 0 2 0) /\
  meant a_history (Plain (text "my-filter")) = None /\ meant a_history (pk "acme" "my-filter" 0 2 0) = Some 2.
Proof.
  exact (conj a_history_good (conj a_package_named (conj (proj2 (proj2 (proj2 a_history_meant))) (proj1 a_history_meant)))).
Qed.

(** A plain name runs the plain module. *)
Theorem C83_plain : forall h n c, good h -> meant h (Plain n) = Some c ->
  resolve n (registry_after h) = Some (mkM None c).
Proof. exact resolve_plain. Qed.
Print Assumptions C83_plain.
Example C83_plain_ex : good a_history /\ meant a_history (Plain (text "my-map")) = Some 6.
Proof. exact (conj a_history_good (proj1 (proj2 (proj2 a_history_meant)))). Qed.

(** Any name runs a module that fits it, the first by the name under which it is
    kept; it fails only if nothing fits. *)
Theorem C83_fits : forall h a, good h -> ask_ok a ->
  match resolve (ask_text a) (registry_after h) with
  | Some m => exists i c, meant h i = Some c /\ m = module_of i c /\ fits a i /\
      forall j d, meant h j = Some d -> fits a j -> j = i \/ text_ltb (kept_as i) (kept_as j) = true
  | None => forall i, fits a i -> meant h i = None
  end.
Proof. exact resolve_any. Qed.
Print Assumptions C83_fits.
Example C83_fits_ex : good a_history /\ resolve (ask_text (AskGroup (text "other") (text "my-filter"))) (registry_after a_history)
  = Some (module_of (pk "other" "my-filter" 1 0 0) 4).
Proof. split; [exact a_history_good|vm_compute; reflexivity]. Qed.

(** A name whose version is none runs and lists nothing. *)
Theorem C83_no_version : forall g n v r, ~ In 47 g -> ~ In 47 n -> ~ In 64 n -> ~ In 47 v -> no_version v ->
  let name := g ++ text "/" ++ n ++ text "@" ++ v in resolve name r = None /\ list_modules [name] r = None.
Proof. exact no_version_nothing. Qed.
Print Assumptions C83_no_version.
Example C83_no_version_ex : no_version (text "latest") /\ ~ In 47 (text "latest").
Proof. exact latest_no_version. Qed.

(** A plain module is run for the full name of a package, *)
Theorem C83_hidden_refuted : exists h p c, good h /\ meant h (Package p) = Some c /\
  exists d, d <> c /\ resolve (name_of (Package p)) (registry_after h) = Some (mkM None d).
Proof. exact hidden. Qed.
Print Assumptions C83_hidden_refuted.
(** an older version for a name without version, *)
Theorem C83_newest_refuted : exists h g n v w c d, good h /\ newer w v /\
  meant h (Package (mkPkg g n v)) = Some c /\ meant h (Package (mkPkg g n w)) = Some d /\
  resolve (g ++ text "/" ++ n) (registry_after h) = Some (mkM (Some (mkPkg g n v)) c).
Proof. exact oldest. Qed.
Print Assumptions C83_newest_refuted.
(** publishing a module changes what the name of another one runs, *)
Theorem C83_stable_refuted : exists h i j n c d, let h' := h ++ [Publish j [] d] in good h' /\ i <> j /\ c <> d /\
  resolve n (registry_after h) = Some (module_of i c) /\ meant h' i = Some c /\
  resolve n (registry_after h') = Some (module_of j d).
Proof. exact taken_over. Qed.
Print Assumptions C83_stable_refuted.
(** and name\@version is not a name of a package. *)
Theorem C83_no_group_refuted : exists h p c, good h /\ meant h (Package p) = Some c /\
  resolve (p_name p ++ text "@" ++ print_version (p_version p)) (registry_after h) = None.
Proof. exact no_group. Qed.
Print Assumptions C83_no_group_refuted.

(** ** C84 *)

(** The names in a list are those of the modules that are there. *)
Theorem C84_listed : forall h, good h -> forall n,
  (exists id m, In (id, m) (registry_after h) /\ shown id m = n) <-> (exists i c, meant h i = Some c /\ name_of i = n).
Proof. exact listed_names. Qed.
Print Assumptions C84_listed.
(** With its code; under the name of the module, or name-group-version. *)
Theorem C84_content : forall h, good h -> forall id m, In (id, m) (registry_after h) ->
  exists i c, meant h i = Some c /\ id = kept_as i /\ m = module_of i c /\ shown id m = name_of i.
Proof. exact listed_all. Qed.
Print Assumptions C84_content.
Example C84_content_ex : good a_history /\ length (registry_after a_history) = 4%nat.
Proof. split; [exact a_history_good|vm_compute; reflexivity]. Qed.
(** A list without filters has all; one with filters has those that fit one of them. *)
Theorem C84_filter : forall h l, good h -> Forall ask_ok l -> exists out,
  list_modules (map ask_text l) (registry_after h) = Some out /\
  forall i c, known h i ->
    (In (kept_as i, module_of i c) out <-> meant h i = Some c /\ (l = [] \/ exists a, In a l /\ fits a i)).
Proof. exact list_any. Qed.
Print Assumptions C84_filter.

Example C84_filter_ex : good a_history /\ Forall ask_ok [AskName (text "my-map"); AskGroup (text "other") (text "my-filter")] /\
  option_map (@length _) (list_modules (map ask_text [AskName (text "my-map"); AskGroup (text "other") (text "my-filter")])
    (registry_after a_history)) = Some 2%nat.
Proof. exact (conj a_history_good two_filters). Qed.

(** Deletion by name is answered by what is there; packages without a name or a
    group are refused. *)
Theorem C84_delete : forall h i, good h -> known h i ->
  fst (delete (name_of i) (registry_after h)) = match meant h i with Some _ => Done (name_of i) | None => NotFound end.
Proof. exact delete_answer. Qed.
Print Assumptions C84_delete.
Theorem C84_invalid : forall r given g n v c, g = [] \/ n = [] ->
  create given (mkM (Some (mkPkg g n v)) c) r = (Refused, r).
Proof. exact create_refused. Qed.
Print Assumptions C84_invalid.

(** These hold if groups have no '-' and plain names no '.' or no '-'. *)
Theorem C84_no_clash : forall h, Forall (fun e => well_named (subject e) /\ tidy (subject e)) h -> good h.
Proof. exact tidy_good. Qed.
Print Assumptions C84_no_clash.
(** Otherwise publishing a package can remove another one, *)
Theorem C84_clash_refuted : exists i j c d, well_named i /\ well_named j /\ i <> j /\
  let h := [Publish i [] c; Publish j [] d] in
  meant h i = Some c /\ resolve (name_of i) (registry_after h) = None /\ length (registry_after h) = 1%nat.
Proof. exact clash. Qed.
Print Assumptions C84_clash_refuted.
(** and a plain module can remove a package. *)
Theorem C84_clash_plain_refuted : exists p n c d, well_named (Package p) /\ well_named (Plain n) /\
  let h := [Publish (Package p) [] c; Publish (Plain n) [] d] in
  meant h (Package p) = Some c /\ resolve (name_of (Package p)) (registry_after h) = None.
Proof. exact clash_plain. Qed.
Print Assumptions C84_clash_plain_refuted.

(** A name that lists and runs a module need not delete it. *)
Theorem C84_short_delete_refuted : exists h n m id, good h /\ list_modules [n] (registry_after h) = Some [(id, m)] /\
  resolve n (registry_after h) = Some m /\ delete n (registry_after h) = (NotFound, registry_after h).
Proof. exact cannot_delete. Qed.
Print Assumptions C84_short_delete_refuted.

(** The check of a deduplication filter by its own name says whether it is
    there, and then the node finds a module for it; *)
Theorem C84_check : forall h i, good h -> known h i ->
  loaded (name_of i) (registry_after h) = true <-> meant h i <> None.
Proof. exact loaded_iff. Qed.
Print Assumptions C84_check.
Theorem C84_check_runs : forall h i, good h -> known h i -> loaded (name_of i) (registry_after h) = true ->
  resolve (name_of i) (registry_after h) <> None.
Proof. exact loaded_resolves. Qed.
Print Assumptions C84_check_runs.
Example C84_check_runs_ex : good a_history /\ loaded (text "other/my-filter@1.0.0") (registry_after a_history) = true.
Proof. split; [exact a_history_good|vm_compute; reflexivity]. Qed.
(** but it passes names the node does not find, *)
Theorem C84_check_passes_refuted : exists h uses, good h /\
  loaded uses (registry_after h) = true /\ resolve uses (registry_after h) = None.
Proof. exact check_passes. Qed.
Print Assumptions C84_check_passes_refuted.
(** and refuses names the node would find. *)
Theorem C84_check_refuses_refuted : exists h uses, good h /\
  loaded uses (registry_after h) = false /\ resolve uses (registry_after h) <> None.
Proof. exact check_refuses. Qed.
Print Assumptions C84_check_refuses_refuted.
