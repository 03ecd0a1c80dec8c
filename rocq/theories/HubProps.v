(** C98, C99: packages of the hub. *)
Require Import List. Import ListNotations.
From Verif Require Import Base NameModel HubModel HubSpec HubProofs HubClaims.

(** C98: a package can be signed if it has files; it can then be verified with the
    key, in whatever order its signatures are looked at. *)
Theorem C98_verifies : forall S, scheme_ok S -> forall k p pick, plain S p ->
  exists q, package_sign S k p = Good q /\ package_verify S pick q (s_pub S k) = Good tt.
Proof. intros S OK k p pick P. destruct (proj2 (signs_all S k p) (proj1 P)) as [q Q]. exists q. split; [exact Q|exact (verifies S OK k p q pick P Q)]. Qed.
Print Assumptions C98_verifies.
Example C98_verifies_ex : scheme_ok toy /\ plain toy ex_p /\ (match package_sign toy [5] ex_p with Good q => package_verify toy 3 q [5] | Bad e => Bad e end) = Good tt
  /\ (match package_sign toy [5] ex_p with Good q => package_verify toy 3 q [6] | Bad e => Bad e end) = Bad NoSignature.
Proof. split; [exact toy_ok|]. split; [exact ex_plain|]. split; vm_compute; reflexivity. Qed.

(** C98: so does a package that was assembled and signed. *)
Theorem C98_assembled : forall S, scheme_ok S -> forall disk m target k q pick,
  assemble_and_sign S disk m target k = Good q -> package_verify S pick q (s_pub S k) = Good tt.
Proof. intros S OK disk m target k q pick E. destruct (assemble_sign S disk m target k q E) as (p & A & Q). exact (verifies S OK k p q pick (assembled_plain S disk m target p A) Q). Qed.
Print Assumptions C98_assembled.
Example C98_assembled_ex : exists q, assemble_and_sign toy ex_disk (ex_meta [[[97]; [120]]; [[98]; [121]]]) None [5] = Good q /\ zlen q = 3.
Proof. eexists. split; vm_compute; reflexivity. Qed.

(** C98: signing changes none of the files. *)
Theorem C98_unchanged : forall S k p q n, package_sign S k p = Good q -> In n (map fst p) -> topfile S q n = topfile S p n.
Proof. exact unchanged. Qed.
Print Assumptions C98_unchanged.
Example C98_unchanged_ex : exists q, package_sign toy [5] ex_p = Good q /\ topfile toy q [121] = Good (TRaw [2]).
Proof. eexists. split; vm_compute; reflexivity. Qed.

(** C98: a package that is verified with a key has a signature file that names this
    key, and every file that it lists is in the package with data, the last of this
    name, that the listed signature fits. *)
Theorem C98_listed : forall S p key pick, package_verify S pick p key = Good tt ->
  exists n d x, last_entry S p n d /\ stem n = signfile_base /\ s_read S d = Some x /\ p_pubkey x = key
    /\ forall m t, lists x m t -> exists c, last_entry S p m c /\ signed_by S key c t.
Proof. exact listed. Qed.
Print Assumptions C98_listed.

(** C98: signature files are those whose name is "signature", up to the last dot that
    is not the first byte. *)
Theorem C98_signature_files :
  (forall a b, a <> [] -> ~ In 46 b -> stem (a ++ 46 :: b) = a) /\ (forall b, ~ In 46 b -> stem b = b /\ stem (46 :: b) = 46 :: b).
Proof. exact stems. Qed.
Print Assumptions C98_signature_files.
Example C98_signature_files_ex : stem signature_0 = signfile_base /\ stem (signature_0 ++ [46; 48]) = signature_0 /\ stem signfile_base = signfile_base.
Proof. vm_compute. auto. Qed.

(** C98: if names occur only once, then what is read of the files that are listed is
    what is signed. *)
Theorem C98_unique : forall S p key pick, NoDup (map fst p) -> package_verify S pick p key = Good tt ->
  exists n d x, topfile S p n = Good d /\ stem n = signfile_base /\ s_read S d = Some x /\ p_pubkey x = key
    /\ forall m t, lists x m t -> exists c, topfile S p m = Good c /\ signed_by S key c t.
Proof. exact listed_unique. Qed.
Print Assumptions C98_unique.
Example C98_unique_ex : exists q, package_sign toy [5] ex_p = Good q /\ map fst q = [[120]; [121]; signature_0]
  /\ package_verify toy 0 q [5] = Good tt.
Proof. eexists. split; [|split]; vm_compute; reflexivity. Qed.

(** C98: whatever was done to a signed package, as long as its signature is the only
    one with the key: if it is verified, then the last data of each file that was
    there fits the signature. *)
Theorem C98_kept : forall S k p q n d pick, plain S p -> In (n, d) p ->
  (forall m e y, In (m, e) q -> stem m = signfile_base -> s_read S e = Some y -> p_pubkey y = s_pub S k -> y = mkPsig (map (sign_file S k) p) (s_pub S k)) ->
  package_verify S pick q (s_pub S k) = Good tt ->
  exists c, last_entry S q n c /\ signed_by S (s_pub S k) c (s_sign S k d).
Proof. exact kept. Qed.
Print Assumptions C98_kept.

(** C98: a change of a file in a signed package is noticed, unless the signature fits
    the new data. *)
Theorem C98_changed : forall S, scheme_ok S -> forall k p a n d b d' pick, plain S p -> package_sign S k p = Good (a ++ (n, d) :: b) ->
  stem n <> signfile_base -> ~ signed_by S (s_pub S k) d' (s_sign S k d) -> package_verify S pick (a ++ (n, d') :: b) (s_pub S k) <> Good tt.
Proof. exact changed. Qed.
Print Assumptions C98_changed.
Example C98_changed_ex : exists b, package_sign toy [5] ex_p = Good ([([120], TRaw [1; 1])] ++ ([121], TRaw [2]) :: b)
  /\ ~ signed_by toy [5] (TRaw [3]) (s_sign toy [5] (TRaw [2])) /\ package_verify toy 0 ([([120], TRaw [1; 1])] ++ ([121], TRaw [3]) :: b) [5] = Bad NotVerified.
Proof. eexists. split; [vm_compute; reflexivity|]. split; [vm_compute; discriminate|vm_compute; reflexivity]. Qed.

(** C98: and that any file of it was removed. *)
Theorem C98_removed : forall S, scheme_ok S -> forall k p a n d b pick, plain S p -> package_sign S k p = Good (a ++ (n, d) :: b) ->
  package_verify S pick (a ++ b) (s_pub S k) <> Good tt.
Proof. exact removed. Qed.
Print Assumptions C98_removed.

(** C98: a signature that lists no files is good, with any key and any files: nothing
    secret is needed to make it. *)
Theorem C98_forged_refuted : forall S, scheme_ok S -> forall key p, s_valid S key = true -> Forall (fun e => stem (fst e) <> signfile_base) p ->
  exists d, s_read S d = Some (mkPsig [] key) /\ forall pick, package_verify S pick (p ++ [(signature_0, d)]) key = Good tt.
Proof. intros S OK key p V F. exists (s_write S (mkPsig [] key)). split; [apply OK|]. intros pick. exact (forged S OK p key pick V F). Qed.
Print Assumptions C98_forged_refuted.
Example C98_forged_ex : package_verify toy 0 [([120], TRaw [9; 9]); (signature_0, TSig (mkPsig [] [5]))] [5] = Good tt.
Proof. vm_compute. reflexivity. Qed.

(** C98: anything put in front of a signed package is read in place of what was
    signed, or as one more file, and the package is still verified. *)
Theorem C98_in_front_refuted : forall S, scheme_ok S -> forall k p q n d pick, plain S p -> package_sign S k p = Good q -> stem n <> signfile_base ->
  package_verify S pick ((n, d) :: q) (s_pub S k) = Good tt /\ topfile S ((n, d) :: q) n = Good d.
Proof. exact in_front. Qed.
Print Assumptions C98_in_front_refuted.
Example C98_in_front_ex : exists q, package_sign toy [5] ex_p = Good q /\ topfile toy q [121] = Good (TRaw [2])
  /\ package_verify toy 0 (([121], TRaw [9]) :: q) [5] = Good tt /\ topfile toy (([121], TRaw [9]) :: q) [121] = Good (TRaw [9]).
Proof. eexists. split; [vm_compute; reflexivity|]. repeat split; vm_compute; reflexivity. Qed.

(** C98: names are not signed: files can be renamed, also to each other's names. *)
Theorem C98_renamed_refuted : forall S, scheme_ok S -> forall k f p pick, plain S (renamed f p) ->
  package_verify S pick (renamed f p ++ [(signature_0, s_write S (renamed_sig f (mkPsig (map (sign_file S k) p) (s_pub S k))))]) (s_pub S k) = Good tt.
Proof. exact renames. Qed.
Print Assumptions C98_renamed_refuted.
Example C98_renamed_ex : let f n := if same n [120] then [121] else [120] in
  renamed f ex_p = [([121], TRaw [1; 1]); ([120], TRaw [2])] /\ plain toy (renamed f ex_p).
Proof. split; [vm_compute; reflexivity|]. split; [discriminate|]. split; [repeat constructor; cbn; intuition discriminate|]. repeat constructor; vm_compute; discriminate. Qed.

(** C98: a package can be signed a second time, but the second signature gets the
    name of the first: the first key is no longer found, and the second one does not
    fit, as it signed the first signature file. *)
Theorem C98_second_refuted : forall S, scheme_ok S -> forall k1 k2 p q1 q2 pick, plain S p ->
  package_sign S k1 p = Good q1 -> package_sign S k2 q1 = Good q2 -> s_pub S k1 <> s_pub S k2 ->
  package_verify S pick q2 (s_pub S k1) = Bad NoSignature
  /\ (forall d1 d2, In (signature_0, d1) q1 -> In (signature_0, d2) q2 -> d1 <> d2 -> ~ signed_by S (s_pub S k2) d2 (s_sign S k2 d1) ->
      package_verify S pick q2 (s_pub S k2) <> Good tt).
Proof. exact second. Qed.
Print Assumptions C98_second_refuted.
Example C98_second_ex : exists q1 q2, package_sign toy [5] ex_p = Good q1 /\ package_sign toy [6] q1 = Good q2
  /\ map fst q2 = [[120]; [121]; signature_0; signature_0] /\ package_verify toy 0 q2 [5] = Bad NoSignature /\ package_verify toy 0 q2 [6] = Bad NotVerified.
Proof. eexists. eexists. split; [vm_compute; reflexivity|]. split; [vm_compute; reflexivity|]. repeat split; vm_compute; reflexivity. Qed.

(** C99: a package is assembled exactly if every path of the manifest names a file
    that is there. *)
Theorem C99_assembles : forall S disk m target,
  (exists p, package_assemble S disk m target = Good p) <-> Forall (fits_disk S disk) (m_manifest m).
Proof. exact assembles. Qed.
Print Assumptions C99_assembles.
Example C99_assembles_ex : package_assemble toy ex_disk (ex_meta [[[97]; [120]]; [[99]]]) None = Bad MissingFile.
Proof. vm_compute. reflexivity. Qed.

(** C99: the description in the package is the one given, with the names of the files
    in place of their paths; the target is added as a tag unless there is one. *)
Theorem C99_meta : forall S, scheme_ok S -> forall disk m target p, package_assemble S disk m target = Good p ->
  exists m', get_meta S p = Good m' /\ m_rest m' = m_rest m /\ m_manifest m' = map (fun path => [base path]) (m_manifest m)
    /\ m_tags m' = match target with
                   | None => m_tags m
                   | Some t => match m_tags m with
                               | None => Some [(arch, t)]
                               | Some l => if existsb (fun e => same (fst e) arch) l then Some l else Some (l ++ [(arch, t)])
                               end
                   end.
Proof. exact meta_of. Qed.
Print Assumptions C99_meta.
Example C99_meta_ex : match package_assemble toy ex_disk (ex_meta [[[97]; [120]]; [[98]; [121]]]) (Some [8]) with Good p => get_meta toy p | Bad e => Bad e end
  = Good (mkMeta [7] [[[120]]; [[121]]] (Some [([118], [49]); (arch, [8])])).
Proof. vm_compute. reflexivity. Qed.

(** C99: what is read from the package under a name is the first file of the manifest
    with this name; there is nothing else in it. *)
Theorem C99_named : forall S, scheme_ok S -> forall disk m target p n, package_assemble S disk m target = Good p ->
  (forall d, manifest_file S p n = Good d <-> exists path, first_named n (m_manifest m) path /\ disk path = Some d)
  /\ (manifest_file S p n = Bad MissingFile <-> ~ In n (map base (m_manifest m))).
Proof. exact files_named. Qed.
Print Assumptions C99_named.

(** C99: with names that differ, every file of the manifest is read as it was. *)
Theorem C99_files : forall S, scheme_ok S -> forall disk m target p path d, package_assemble S disk m target = Good p ->
  NoDup (map base (m_manifest m)) -> In path (m_manifest m) -> disk path = Some d -> manifest_file S p (base path) = Good d.
Proof. exact files_distinct. Qed.
Print Assumptions C99_files.
Example C99_files_ex : match package_assemble toy ex_disk (ex_meta [[[97]; [120]]; [[98]; [121]]]) None with Good p => manifest_file toy p [121] | Bad e => Bad e end = Good (TRaw [3]).
Proof. vm_compute. reflexivity. Qed.

(** C99: signing changes neither the description nor any of the files. *)
Theorem C99_signed : forall S disk m target k q p, package_assemble S disk m target = Good p -> package_sign S k p = Good q ->
  get_meta S q = get_meta S p /\ forall n, manifest_file S q n = manifest_file S p n.
Proof. exact signed_same. Qed.
Print Assumptions C99_signed.

(** C99: of two files with the same name in different directories only the first can
    be read, and nothing is reported. *)
Theorem C99_files_refuted : exists disk m p f1 f2 d1 d2, package_assemble toy disk m None = Good p
  /\ m_manifest m = [f1; f2] /\ f1 <> f2 /\ disk f1 = Some d1 /\ disk f2 = Some d2 /\ d1 <> d2
  /\ base f1 = base f2 /\ manifest_file toy p (base f2) = Good d1 /\ forall n, manifest_file toy p n <> Good d2.
Proof. exact files_refuted. Qed.
Print Assumptions C99_files_refuted.
