Require Import List Lia. Import ListNotations.
From Verif Require Import Base NameModel HubModel HubSpec HubProofs.

Lemma toy_ok : scheme_ok toy.
Proof.
  repeat split; try reflexivity.
  - intros k d. cbn. rewrite same_refl. reflexivity.
  - intros key d d' t. cbn. destruct t; [reflexivity|discriminate].
Qed.

Section Claims.
  Variable S : scheme.
  Hypothesis OK : scheme_ok S.
  Implicit Types (p q : archive S).

  Lemma sig_name_plain p : Forall (fun e => stem (fst e) <> signfile_base) p -> sig_name S p = signature_0.
  Proof.
    intros F. unfold sig_name, sig_number. replace (filter _ p) with (@nil (entry S)); [vm_compute; reflexivity|].
    symmetry. induction F as [|[n d] p E F IH]; cbn [filter fst]; [reflexivity|]. destruct (same n signfile_base) eqn:Q; [|exact IH].
    apply same_iff in Q as ->. exfalso. apply E. vm_compute. reflexivity.
  Qed.
  Lemma stem_0 : stem signature_0 = signfile_base. Proof. vm_compute. reflexivity. Qed.
  Lemma not_in_plain p n : Forall (fun e => stem (fst e) <> signfile_base) p -> stem n = signfile_base -> ~ In n (map fst p).
  Proof. intros F E I. apply in_map_iff in I as [e [<- I]]. rewrite Forall_forall in F. exact (F _ I E). Qed.
  Lemma sign_plain k p : plain S p -> package_sign S k p = Good (p ++ [(signature_0, s_write S (mkPsig (map (sign_file S k) p) (s_pub S k)))]).
  Proof. intros (N & _ & F). destruct p as [|e p]; [contradiction|]. unfold package_sign. rewrite (sig_name_plain _ F). reflexivity. Qed.

  (** One signature with the key. *)
  Lemma verify_one q x key pick : getsigs S q [] = Good [(signature_0, x)] -> p_pubkey x = key -> package_verify S pick q key = verify_sig S q x.
  Proof.
    intros G K. unfold package_verify. rewrite G. cbn [filter snd]. rewrite K, same_refl. cbv zeta. cbn [length].
    replace (Nat.modulo pick 1) with 0%nat by (symmetry; apply PeanoNat.Nat.mod_1_r). reflexivity.
  Qed.
  Lemma getsigs_one p d x : Forall (fun e => stem (fst e) <> signfile_base) p -> s_read S d = Some x -> getsigs S (p ++ [(signature_0, d)]) [] = Good [(signature_0, x)].
  Proof.
    intros F R. rewrite getsigs_app, (getsigs_plain S p [] F). cbn [getsigs]. rewrite stem_0, same_refl, R. reflexivity.
  Qed.
  Lemma check_some key d d' t : signed_by S key d t -> s_check S key d' t <> None.
  Proof. destruct OK as (_ & _ & C & _). unfold signed_by. intros E N. rewrite (C _ _ d _ N) in E. discriminate E. Qed.
  Lemma signs k d : signed_by S (s_pub S k) d (s_sign S k d).
  Proof. destruct OK as (_ & C & _). apply C. Qed.
  (** What an honest signature accepts. *)
  Lemma honest k p q : let x := mkPsig (map (sign_file S k) p) (s_pub S k) in
    (forall n d, In (n, d) p -> exists c, last_entry S q n c /\ c = d) -> NoDup (map fst p) -> verify_sig S q x = Good tt.
  Proof.
    intros x H N. apply good_verify.
    - destruct OK as (V & _). apply V.
    - intros n t d L I. apply lists_signed in L as (c & _ & ->). apply (check_some _ c). apply signs.
    - intros n t L. apply lists_signed in L as (d & I & ->). destruct (H n d I) as (c & E & ->). exists d. split; [exact E|apply signs].
  Qed.

  Lemma last_app p n d e : last_entry S p n d -> fst e <> n -> last_entry S (p ++ [e]) n d.
  Proof. intros (a & b & -> & F) E. exists a, (b ++ [e]). rewrite <- app_assoc. split; [reflexivity|]. apply Forall_app. auto. Qed.
  Lemma last_cons p n d e : last_entry S p n d -> last_entry S (e :: p) n d.
  Proof. intros (a & b & -> & F). exists (e :: a), b. auto. Qed.
  Lemma last_fun p n d c : last_entry S p n d -> last_entry S p n c -> d = c.
  Proof.
    intros (a & b & E & F) (a' & b' & E' & F'). subst p. revert a' E'. induction a as [|x a IH]; intros a' E'; cbn [app] in E'.
    - destruct a' as [|y a']; cbn [app] in E'; injection E' as H1 H2; [congruence|]. subst. apply Forall_app in F as [_ F]. apply Forall_inv in F. cbn in F. contradiction.
    - destruct a' as [|y a']; cbn [app] in E'; injection E' as H1 H2; [|exact (IH _ H2)]. subst. apply Forall_app in F' as [_ F']. apply Forall_inv in F'. cbn in F'. contradiction.
  Qed.

  Lemma verifies k p q pick : plain S p -> package_sign S k p = Good q -> package_verify S pick q (s_pub S k) = Good tt.
  Proof.
    intros P Q. rewrite (sign_plain k p P) in Q. injection Q as <-. destruct P as (_ & N & F). pose proof OK as (_ & _ & _ & R & _).
    rewrite (verify_one _ (mkPsig (map (sign_file S k) p) (s_pub S k))); [|apply getsigs_one; [exact F|apply R]|reflexivity].
    apply honest; [|exact N]. intros n d I. exists d. split; [|reflexivity]. apply last_app; [apply nodup_last; assumption|]. cbn [fst]. intros <-.
    apply (not_in_plain p signature_0 F stem_0). apply in_map_iff. exists (signature_0, d). auto.
  Qed.
  Lemma signs_all k p : (exists q, package_sign S k p = Good q) <-> p <> [].
  Proof. destruct p; cbn [package_sign]; split; try (intros [q Q]; discriminate || intros H; discriminate); try (intros H; exfalso; apply H; reflexivity); eauto. Qed.
  Lemma unchanged k p q n : package_sign S k p = Good q -> In n (map fst p) -> topfile S q n = topfile S p n.
  Proof.
    intros Q I. destruct p as [|e p]; [destruct I|]. unfold package_sign in Q. injection Q as <-. unfold topfile.
    match goal with |- match get n (e :: ?r) with _ => _ end = _ => assert (G : get n (e :: r) = get n (e :: p)) end; [|rewrite G; reflexivity].
    etransitivity; [exact (@get_app (s_data S) n (e :: p) [(sig_name S (e :: p), s_write S (mkPsig (map (sign_file S k) (e :: p)) (s_pub S k)))])|].
    destruct (get n (e :: p)) eqn:G; [reflexivity|]. apply get_none in G. contradiction.
  Qed.

  Lemma listed p key pick : package_verify S pick p key = Good tt ->
    exists n d x, last_entry S p n d /\ stem n = signfile_base /\ s_read S d = Some x /\ p_pubkey x = key
      /\ forall m t, lists x m t -> exists c, last_entry S p m c /\ signed_by S key c t.
  Proof.
    unfold package_verify. destruct (getsigs S p []) as [l|] eqn:G; [|discriminate]. destruct (nth_error _ _) as [[n x]|] eqn:E; [|discriminate].
    intros V. apply nth_error_In in E. apply filter_In in E as [E K]. apply same_iff in K. cbn [snd] in *.
    destruct (getsigs_inv S p [] l G (NoDup_nil _) (Forall_nil _)) as [_ H]. destruct (H _ _ E) as [[[] _]|(d & L & R & T)].
    destruct (verify_sig_good S p x V) as [_ F]. exists n, d, x. repeat split; auto. intros m t M. rewrite <- K. exact (F m t M).
  Qed.
  Lemma unique p n d : NoDup (map fst p) -> last_entry S p n d -> topfile S p n = Good d.
  Proof. intros N L. apply nodup_topfile; [exact N|apply last_in, L]. Qed.
  Lemma listed_unique p key pick : NoDup (map fst p) -> package_verify S pick p key = Good tt ->
    exists n d x, topfile S p n = Good d /\ stem n = signfile_base /\ s_read S d = Some x /\ p_pubkey x = key
      /\ forall m t, lists x m t -> exists c, topfile S p m = Good c /\ signed_by S key c t.
  Proof.
    intros N V. destruct (listed p key pick V) as (n & d & x & L & T & R & K & F). exists n, d, x. repeat split; auto using unique.
    intros m t M. destruct (F m t M) as (c & C & D). exists c. auto using unique.
  Qed.

  Lemma signed_lists k p n d : NoDup (map fst p) -> In (n, d) p -> lists (mkPsig (map (sign_file S k) p) (s_pub S k)) n (s_sign S k d).
  Proof.
    intros N I. destruct (nodup_last S p n d N I) as (a & b & -> & F). exists (map (sign_file S k) a), (sign_file S k (n, d)), (map (sign_file S k) b).
    cbn [p_files]. rewrite map_app. repeat split. apply Forall_map. revert F. apply Forall_impl. intros [m c] H. exact H.
  Qed.
  (** The only signature with the key in [q] is that of [p]. *)
  Lemma kept k p q n d pick : plain S p -> In (n, d) p ->
    (forall m e y, In (m, e) q -> stem m = signfile_base -> s_read S e = Some y -> p_pubkey y = s_pub S k -> y = mkPsig (map (sign_file S k) p) (s_pub S k)) ->
    package_verify S pick q (s_pub S k) = Good tt ->
    exists c, last_entry S q n c /\ signed_by S (s_pub S k) c (s_sign S k d).
  Proof.
    intros (_ & N & _) I H V. destruct (listed q _ pick V) as (m & e & x & L & T & R & K & F). pose proof (H m e x (last_in S _ _ _ L) T R K) as ->.
    apply F. apply signed_lists; assumption.
  Qed.
  Lemma only_sig k p q : plain S p -> package_sign S k p = Good q ->
    forall m e y, In (m, e) q -> stem m = signfile_base -> s_read S e = Some y -> y = mkPsig (map (sign_file S k) p) (s_pub S k).
  Proof.
    intros P Q m e y I T R. rewrite (sign_plain k p P) in Q. injection Q as <-. destruct P as (_ & N & F). apply in_app_or in I as [I|[[= <- <-]|[]]].
    - exfalso. rewrite Forall_forall in F. exact (F _ I T).
    - pose proof OK as (_ & _ & _ & W & _). rewrite W in R. injection R as <-. reflexivity.
  Qed.
  Lemma nodup_signed p d : NoDup (map fst p) -> Forall (fun e => stem (fst e) <> signfile_base) p -> NoDup (map fst (p ++ [(signature_0, d)])).
  Proof.
    intros N F. rewrite map_app. cbn [map fst]. pose proof (Add_app signature_0 (map fst p) []) as A. rewrite app_nil_r in A.
    apply (proj2 (NoDup_Add A)). split; [exact N|apply not_in_plain; [exact F|apply stem_0]].
  Qed.
  (** A file of the package changed, in the signed package. *)
  Lemma changed k p a n d b d' pick : plain S p -> package_sign S k p = Good (a ++ (n, d) :: b) -> stem n <> signfile_base ->
    ~ signed_by S (s_pub S k) d' (s_sign S k d) -> package_verify S pick (a ++ (n, d') :: b) (s_pub S k) <> Good tt.
  Proof.
    intros P Q T D V. pose proof (sign_plain k p P) as Q'. rewrite Q in Q'. injection Q' as E. pose proof P as (_ & N & F).
    assert (NQ : NoDup (map fst (a ++ (n, d) :: b))) by (rewrite E; apply nodup_signed; assumption).
    assert (I : In (n, d) p).
    { assert (J : In (n, d) (a ++ (n, d) :: b)) by (apply in_or_app; right; left; reflexivity). rewrite E in J. apply in_app_or in J as [J|[[= <- <-]|[]]]; [exact J|exfalso; apply T, stem_0]. }
    destruct (kept k p (a ++ (n, d') :: b) n d pick P I) as (c & L & C); [|exact V|].
    - intros m e y J M R K. apply (only_sig k p _ P Q m e y); [|exact M|exact R]. apply in_app_or in J as [J|[[= <- <-]|J]]; [apply in_or_app; auto|contradiction|apply in_or_app; right; right; exact J].
    - apply D. replace d' with c; [exact C|]. apply (last_fun (a ++ (n, d') :: b) n); [exact L|]. exists a, b. split; [reflexivity|].
      rewrite map_app in NQ. cbn [map fst] in NQ. apply NoDup_remove_2 in NQ. apply Forall_forall. intros [m g] J M. cbn [fst] in M. subst m. apply NQ. apply in_or_app. right. apply in_map_iff. exists (n, g). auto.
  Qed.
  Lemma removed k p a n d b pick : plain S p -> package_sign S k p = Good (a ++ (n, d) :: b) ->
    package_verify S pick (a ++ b) (s_pub S k) <> Good tt.
  Proof.
    intros P Q V. pose proof (sign_plain k p P) as Q'. rewrite Q in Q'. injection Q' as E. pose proof P as (_ & N & F).
    assert (NQ : NoDup (map fst (a ++ (n, d) :: b))) by (rewrite E; apply nodup_signed; assumption).
    rewrite map_app in NQ. cbn [map fst] in NQ. apply NoDup_remove_2 in NQ. rewrite <- map_app in NQ.
    assert (J : In (n, d) (a ++ (n, d) :: b)) by (apply in_or_app; right; left; reflexivity). rewrite E in J. apply in_app_or in J as [I|[[= <- <-]|[]]].
    - destruct (kept k p (a ++ b) n d pick P I) as (c & L & C); [|exact V|].
      + intros m e y J M R K. apply (only_sig k p _ P Q m e y); [|exact M|exact R]. apply in_app_or in J. apply in_or_app. cbn [In]. intuition.
      + apply NQ. apply in_map_iff. exists (n, c). split; [reflexivity|apply last_in, L].
    - destruct (listed (a ++ b) _ pick V) as (m & e & x & L & T & _). apply last_in in L.
      assert (J : In (m, e) (a ++ (signature_0, s_write S (mkPsig (map (sign_file S k) p) (s_pub S k))) :: b)) by (apply in_app_or in L; apply in_or_app; cbn [In]; intuition).
      rewrite E in J. apply in_app_or in J as [J|[[= <- <-]|[]]].
      + rewrite Forall_forall in F. exact (F _ J T).
      + apply NQ. apply in_map_iff. eexists. split; [|exact L]. reflexivity.
  Qed.

  (** What is not noticed. *)
  Lemma forged p key pick : s_valid S key = true -> Forall (fun e => stem (fst e) <> signfile_base) p ->
    package_verify S pick (p ++ [(signature_0, s_write S (mkPsig [] key))]) key = Good tt.
  Proof.
    intros V F. pose proof OK as (_ & _ & _ & R & _). rewrite (verify_one _ (mkPsig [] key)); [|apply getsigs_one; [exact F|apply R]|reflexivity].
    apply good_verify; [exact V|..].
    - intros n t d (a & f & b & E & _). destruct a; discriminate E.
    - intros n t (a & f & b & E & _). destruct a; discriminate E.
  Qed.
  Lemma in_front k p q n d pick : plain S p -> package_sign S k p = Good q -> stem n <> signfile_base ->
    package_verify S pick ((n, d) :: q) (s_pub S k) = Good tt /\ topfile S ((n, d) :: q) n = Good d.
  Proof.
    intros P Q T. split; [|unfold topfile; cbn [get]; rewrite same_refl; reflexivity].
    rewrite (sign_plain k p P) in Q. injection Q as <-. destruct P as (_ & N & F). pose proof OK as (_ & _ & _ & R & _).
    rewrite (verify_one _ (mkPsig (map (sign_file S k) p) (s_pub S k))); [| |reflexivity].
    - apply honest; [|exact N]. intros m c I. exists c. split; [|reflexivity]. apply last_cons, last_app; [apply nodup_last; assumption|]. cbn [fst]. intros <-.
      apply (not_in_plain p signature_0 F stem_0). apply in_map_iff. exists (signature_0, c). auto.
    - change ((n, d) :: p ++ [(signature_0, s_write S (mkPsig (map (sign_file S k) p) (s_pub S k)))]) with (((n, d) :: p) ++ [(signature_0, s_write S (mkPsig (map (sign_file S k) p) (s_pub S k)))]).
      apply getsigs_one; [constructor; [exact T|exact F]|apply R].
  Qed.
  Lemma sign_renamed k f p : map (sign_file S k) (renamed f p) = p_files (renamed_sig f (mkPsig (map (sign_file S k) p) (s_pub S k))).
  Proof. unfold renamed, renamed_sig. cbn [p_files]. rewrite !map_map. reflexivity. Qed.
  Lemma renames k f p pick : plain S (renamed f p) ->
    package_verify S pick (renamed f p ++ [(signature_0, s_write S (renamed_sig f (mkPsig (map (sign_file S k) p) (s_pub S k))))]) (s_pub S k) = Good tt.
  Proof.
    intros P. apply (verifies k (renamed f p)); [exact P|]. rewrite (sign_plain k _ P), sign_renamed. reflexivity.
  Qed.

  (** Signing again. *)
  Lemma second k1 k2 p q1 q2 pick : plain S p -> package_sign S k1 p = Good q1 -> package_sign S k2 q1 = Good q2 -> s_pub S k1 <> s_pub S k2 ->
    package_verify S pick q2 (s_pub S k1) = Bad NoSignature
    /\ (forall d1 d2, In (signature_0, d1) q1 -> In (signature_0, d2) q2 -> d1 <> d2 -> ~ signed_by S (s_pub S k2) d2 (s_sign S k2 d1) ->
        package_verify S pick q2 (s_pub S k2) <> Good tt).
  Proof.
    intros P Q1 Q2 K. rewrite (sign_plain k1 p P) in Q1. injection Q1 as <-. destruct P as (NE & N & F). pose proof OK as (_ & _ & _ & R & _).
    set (w1 := s_write S (mkPsig (map (sign_file S k1) p) (s_pub S k1))) in *.
    assert (NN : sig_name S (p ++ [(signature_0, w1)]) = signature_0).
    { unfold sig_name, sig_number. rewrite filter_app. cbn [filter fst]. replace (same signature_0 signfile_base) with false by (vm_compute; reflexivity). rewrite app_nil_r.
      apply sig_name_plain. exact F. }
    assert (E2 : package_sign S k2 (p ++ [(signature_0, w1)]) = Good ((p ++ [(signature_0, w1)]) ++ [(signature_0, s_write S (mkPsig (map (sign_file S k2) (p ++ [(signature_0, w1)])) (s_pub S k2)))])).
    { unfold package_sign. destruct (p ++ [(signature_0, w1)]) as [|e r] eqn:E; [destruct p; discriminate E|]. rewrite NN. reflexivity. }
    rewrite E2 in Q2. injection Q2 as <-. set (x2 := mkPsig (map (sign_file S k2) (p ++ [(signature_0, w1)])) (s_pub S k2)) in *.
    assert (G : getsigs S ((p ++ [(signature_0, w1)]) ++ [(signature_0, s_write S x2)]) [] = Good [(signature_0, x2)]).
    { rewrite getsigs_app. rewrite (getsigs_one p w1 (mkPsig (map (sign_file S k1) p) (s_pub S k1)) F (R _)). cbn [getsigs]. rewrite stem_0, same_refl, R. cbn [put]. rewrite same_refl. reflexivity. }
    split.
    - unfold package_verify. rewrite G. cbn [filter snd]. change (p_pubkey x2) with (s_pub S k2). replace (same (s_pub S k2) (s_pub S k1)) with false; [cbv zeta; destruct (Nat.modulo _ _); reflexivity|].
      symmetry. apply same_false. congruence.
    - intros d1 d2 I1 I2 D H V. rewrite (verify_one _ x2 (s_pub S k2) pick G eq_refl) in V. apply verify_sig_good in V as [_ V].
      assert (E1 : d1 = w1).
      { apply in_app_or in I1 as [I1|[[= <-]|[]]]; [|reflexivity]. exfalso. apply (not_in_plain p signature_0 F stem_0). apply in_map_iff. exists (signature_0, d1). auto. }
      subst d1. assert (E : d2 = s_write S x2).
      { apply in_app_or in I2 as [I2|[[= <-]|[]]]; [|reflexivity]. apply in_app_or in I2 as [I2|[[= <-]|[]]]; [|congruence].
        exfalso. apply (not_in_plain p signature_0 F stem_0). apply in_map_iff. exists (signature_0, d2). auto. }
      subst d2. destruct (V signature_0 (s_sign S k2 w1)) as (c & L & C).
      { apply signed_lists; [apply nodup_signed; assumption|]. apply in_or_app. right. left. reflexivity. }
      apply H. replace (s_write S x2) with c; [exact C|]. apply (last_fun ((p ++ [(signature_0, w1)]) ++ [(signature_0, s_write S x2)]) signature_0); [exact L|].
      exists (p ++ [(signature_0, w1)]), []. auto.
  Qed.

  (** * Assembling *)
  Variable disk : list name -> option (s_data S).
  Notation fits_disk := (fits_disk S disk).
  Lemma file_name_base path : file_name path = match path with [] => None | _ => if same (base path) [46; 46] then None else Some (base path) end.
  Proof.
    unfold file_name, base. destruct path as [|x l] using rev_ind; [reflexivity|]. rewrite rev_app_distr, last_last. cbn [rev app]. destruct (l ++ [x]) eqn:E; [destruct l; discriminate E|reflexivity].
  Qed.
  Lemma gather_good l : forall r, gather S disk l = Good r -> Forall fits_disk l /\ map fst r = map base l /\ map (fun e => Some (snd e)) r = map disk l.
  Proof.
    induction l as [|path l IH]; cbn [gather]; intros r G.
    - injection G as <-. repeat split. constructor.
    - rewrite file_name_base in G. destruct path as [|x path]; [discriminate|]. destruct (same (base (x :: path)) [46; 46]) eqn:B; [discriminate|]. apply same_false in B.
      destruct (disk (x :: path)) as [d|] eqn:D; [|discriminate]. destruct (gather S disk l) as [r'|] eqn:G'; [|discriminate]. injection G as <-.
      destruct (IH _ eq_refl) as (F & A & C). split; [|cbn [map fst snd]; rewrite A, C, D; auto]. constructor; [|exact F]. split; [discriminate|]. split; [exact B|congruence].
  Qed.
  Lemma gather_all l : Forall fits_disk l -> exists r, gather S disk l = Good r.
  Proof.
    intros F. induction F as [|path l (A & B & C) F [r IH]]; cbn [gather]; [eauto|]. rewrite file_name_base. destruct path as [|x path]; [contradiction|].
    apply same_false in B. rewrite B. destruct (disk (x :: path)) as [d|]; [|contradiction]. rewrite IH. eauto.
  Qed.
  Lemma assembles m target : (exists p, package_assemble S disk m target = Good p) <-> Forall fits_disk (m_manifest m).
  Proof.
    unfold package_assemble. split.
    - intros [p E]. destruct (gather S disk (m_manifest m)) as [r|] eqn:G; [|discriminate]. apply (gather_good _ _ G).
    - intros F. destruct (gather_all _ F) as [r ->]. eauto.
  Qed.
  Lemma assemble_inv m target p : package_assemble S disk m target = Good p -> exists r, gather S disk (m_manifest m) = Good r
    /\ p = [(package_meta, s_wmeta S (clean S m target r)); (manifest_blob, s_pack S r)].
  Proof. unfold package_assemble. destruct (gather S disk (m_manifest m)) as [r|]; [|discriminate]. intros [= <-]. eauto. Qed.
  Lemma assembled_plain m target p : package_assemble S disk m target = Good p -> plain S p.
  Proof.
    intros E. destruct (assemble_inv _ _ _ E) as (r & _ & ->). split; [discriminate|]. split.
    - cbn [map fst]. repeat constructor; cbn; [|intros []]. intros [H|[]]. vm_compute in H. discriminate H.
    - repeat constructor; vm_compute; discriminate.
  Qed.
  Lemma assemble_sign m target k q : assemble_and_sign S disk m target k = Good q -> exists p, package_assemble S disk m target = Good p /\ package_sign S k p = Good q.
  Proof. unfold assemble_and_sign. destruct (package_assemble S disk m target) as [p|]; [|discriminate]. eauto. Qed.
  Lemma signed_same m target k q p : package_assemble S disk m target = Good p -> package_sign S k p = Good q ->
    get_meta S q = get_meta S p /\ forall n, manifest_file S q n = manifest_file S p n.
  Proof.
    intros E Q. destruct (assemble_inv _ _ _ E) as (r & _ & ->). unfold get_meta, manifest_file.
    rewrite !(unchanged k _ q _ Q) by (cbn; auto). auto.
  Qed.
  Lemma meta_of m target p : package_assemble S disk m target = Good p -> exists m', get_meta S p = Good m'
    /\ m_rest m' = m_rest m /\ m_manifest m' = map (fun path => [base path]) (m_manifest m)
    /\ m_tags m' = match target with
                   | None => m_tags m
                   | Some t => match m_tags m with
                               | None => Some [(arch, t)]
                               | Some l => if existsb (fun e => same (fst e) arch) l then Some l else Some (l ++ [(arch, t)])
                               end
                   end.
  Proof.
    intros E. destruct (assemble_inv _ _ _ E) as (r & G & ->). exists (clean S m target r). pose proof OK as (_ & _ & _ & _ & _ & M).
    unfold get_meta, topfile. cbn [get]. rewrite same_refl, M. repeat split.
    - unfold clean. cbn [m_manifest]. apply gather_good in G as (_ & G & _). rewrite <- map_map with (f := base) (g := fun n => [n]), <- G, map_map. reflexivity.
    - unfold clean. cbn [m_tags]. destruct target as [t|]; [|reflexivity]. unfold augment. destruct (m_tags m) as [l|]; [|reflexivity].
      assert (H : forall (f : bytes * bytes -> bool) l, existsb f l = match find f l with Some _ => true | None => false end).
      { intros f. induction l0 as [|x l0 IH]; cbn [find existsb]; [reflexivity|]. destruct (f x); [reflexivity|exact IH]. }
      unfold name in *. rewrite H. destruct (find _ l); reflexivity.
  Qed.
  Lemma manifest_get m target p r n : package_assemble S disk m target = Good p -> gather S disk (m_manifest m) = Good r ->
    manifest_file S p n = topfile S r n.
  Proof.
    intros E G. destruct (assemble_inv _ _ _ E) as (r' & G' & ->). rewrite G in G'. injection G' as <-. pose proof OK as (_ & _ & _ & _ & U & _).
    unfold manifest_file. replace (topfile S _ manifest_blob) with (Good (A:=s_data S) (s_pack S r)); [rewrite U; reflexivity|].
    unfold topfile. cbn [get]. replace (same package_meta manifest_blob) with false by (vm_compute; reflexivity). rewrite same_refl. reflexivity.
  Qed.
  (** The file read is the first of the manifest with that name. *)
  Lemma gather_get l : forall r n, gather S disk l = Good r ->
    match get n r with
    | Some d => exists a path b, l = a ++ path :: b /\ base path = n /\ disk path = Some d /\ Forall (fun o => base o <> n) a
    | None => Forall (fun o => base o <> n) l
    end.
  Proof.
    induction l as [|path l IH]; cbn [gather]; intros r n G; [injection G as <-; constructor|].
    rewrite file_name_base in G. destruct path as [|x path]; [discriminate|]. destruct (same (base (x :: path)) [46; 46]) eqn:B; [discriminate|].
    destruct (disk (x :: path)) as [d|] eqn:D; [|discriminate]. destruct (gather S disk l) as [r'|] eqn:G'; [|discriminate]. injection G as <-. cbn [get].
    destruct (same (base (x :: path)) n) eqn:E.
    - apply same_iff in E. exists [], (x :: path), l. repeat split; auto.
    - apply same_false in E. specialize (IH r' n eq_refl). destruct (get n r') as [c|].
      + destruct IH as (a & o & b & -> & H1 & H2 & H3). exists ((x :: path) :: a), o, b. repeat split; auto.
      + constructor; assumption.
  Qed.
  Lemma files_first m target p n : package_assemble S disk m target = Good p ->
    (forall d, manifest_file S p n = Good d <-> exists a path b, m_manifest m = a ++ path :: b /\ base path = n /\ disk path = Some d /\ Forall (fun o => base o <> n) a)
    /\ (manifest_file S p n = Bad MissingFile <-> Forall (fun o => base o <> n) (m_manifest m)).
  Proof.
    intros E. destruct (assemble_inv _ _ _ E) as (r & G & _). rewrite (manifest_get _ _ _ _ n E G). pose proof (gather_get _ _ n G) as H. unfold topfile.
    destruct (get n r) as [c|].
    - split.
      + intros d. split; [intros [= <-]; exact H|]. intros (a & path & b & A1 & A2 & A3 & A4). destruct H as (a' & path' & b' & B1 & B2 & B3 & B4).
        assert (Q : path = path').
        { rewrite A1 in B1. clear A1 E G. revert a' B1 B4. induction a as [|y a IH]; intros a' B1 B4; destruct a' as [|z a']; cbn [app] in B1; injection B1 as C1 C2.
          - exact C1.
          - exfalso. apply (Forall_inv B4). rewrite <- C1. exact A2.
          - exfalso. apply (Forall_inv A4). rewrite C1. exact B2.
          - exact (IH (Forall_inv_tail A4) _ C2 (Forall_inv_tail B4)). }
        subst. rewrite A3 in B3. injection B3 as <-. reflexivity.
      + split; [discriminate|]. intros F. destruct H as (a' & path' & b' & B1 & B2 & _). rewrite B1 in F. apply Forall_app in F as [_ F]. apply Forall_inv in F. contradiction.
    - split; [|split; auto]. intros d. split; [discriminate|]. intros (a & path & b & A1 & A2 & _). rewrite A1 in H. apply Forall_app in H as [_ H]. apply Forall_inv in H. contradiction.
  Qed.
  Lemma files_distinct m target p path d : package_assemble S disk m target = Good p -> NoDup (map base (m_manifest m)) ->
    In path (m_manifest m) -> disk path = Some d -> manifest_file S p (base path) = Good d.
  Proof.
    intros E N I D. apply (proj1 (files_first m target p (base path) E)). apply in_split in I as (a & b & A). exists a, path, b. rewrite A in *. repeat split; auto.
    rewrite map_app in N. cbn [map] in N. apply NoDup_remove_2 in N. apply Forall_forall. intros o J K. apply N. apply in_or_app. left. rewrite <- K. apply in_map, J.
  Qed.
  Lemma files_named m target p n : package_assemble S disk m target = Good p ->
    (forall d, manifest_file S p n = Good d <-> exists path, first_named n (m_manifest m) path /\ disk path = Some d)
    /\ (manifest_file S p n = Bad MissingFile <-> ~ In n (map base (m_manifest m))).
  Proof.
    intros E. destruct (files_first m target p n E) as [A B]. split.
    - intros d. rewrite A. unfold first_named. split.
      + intros (a & path & b & H1 & H2 & H3 & H4). exists path. split; [exists a, b; auto|exact H3].
      + intros (path & (a & b & H1 & H2 & H4) & H3). exists a, path, b. auto.
    - rewrite B. rewrite Forall_forall. split.
      + intros H I. apply in_map_iff in I as [o [K I]]. exact (H o I K).
      + intros H o I K. apply H. rewrite <- K. apply in_map, I.
  Qed.
  Lemma files_lost m target p f1 f2 d1 d2 : package_assemble S disk m target = Good p -> In f2 (m_manifest m) ->
    first_named (base f2) (m_manifest m) f1 -> disk f1 = Some d1 -> disk f2 = Some d2 -> d1 <> d2 ->
    forall n, manifest_file S p n <> Good d2 \/ n <> base f2.
  Proof.
    intros E I F D1 D2 N n. destruct (name_eq n (base f2)) as [->|]; [left|right; assumption]. destruct (files_named m target p (base f2) E) as [A _].
    rewrite (proj2 (A d1) (ex_intro _ f1 (conj F D1))). congruence.
  Qed.
End Claims.

(** Examples. *)
Definition ex_disk (path : list name) : option tdata :=
  if same (concat path) [97; 120] then Some (TRaw [1; 1]) else if same (concat path) [98; 120] then Some (TRaw [2; 2])
  else if same (concat path) [98; 121] then Some (TRaw [3]) else None.
Definition ex_meta (l : list (list name)) : meta := mkMeta [7] l (Some [([118], [49])]).
Definition ex_p : archive toy := [([120], TRaw [1; 1]); ([121], TRaw [2])].
Lemma ex_plain : plain toy ex_p.
Proof.
  split; [discriminate|]. split; [repeat constructor; cbn; intuition discriminate|]. repeat constructor; vm_compute; discriminate.
Qed.
Lemma files_refuted : exists disk m p f1 f2 d1 d2, package_assemble toy disk m None = Good p
  /\ m_manifest m = [f1; f2] /\ f1 <> f2 /\ disk f1 = Some d1 /\ disk f2 = Some d2 /\ d1 <> d2
  /\ base f1 = base f2 /\ manifest_file toy p (base f2) = Good d1 /\ forall n, manifest_file toy p n <> Good d2.
Proof.
  exists ex_disk, (ex_meta [[[97]; [120]]; [[98]; [120]]]). eexists. exists [[97]; [120]], [[98]; [120]], (TRaw [1; 1]), (TRaw [2; 2]).
  split; [vm_compute; reflexivity|]. repeat (split; [first [discriminate | vm_compute; reflexivity]|]).
  intros n H. unfold manifest_file, topfile in H. cbn [get] in H. change (same [112; 97; 99; 107; 97; 103; 101; 45; 109; 101; 116; 97; 46; 121; 97; 109; 108] manifest_blob) with false in H.
  change (same [109; 97; 110; 105; 102; 101; 115; 116; 46; 116; 97; 114; 46; 103; 122] manifest_blob) with true in H. cbn [get s_unpack toy] in H.
  destruct (same [120] n); discriminate H.
Qed.

(** What counts as a signature file. *)
Lemma last_dot_none l : forall i, ~ In 46 l -> last_dot l i = None.
Proof.
  induction l as [|c l IH]; intros i N; cbn [last_dot]; [reflexivity|]. rewrite IH by (intros I; apply N; right; exact I).
  destruct (Z.eqb_spec c 46); [exfalso; apply N; left; assumption|reflexivity].
Qed.
Lemma last_dot_app a b : ~ In 46 b -> forall i, last_dot (a ++ 46 :: b) i = Some (i + length a)%nat.
Proof.
  intros N. induction a as [|c a IH]; intros i; cbn [app last_dot length].
  - rewrite last_dot_none by exact N. cbn. f_equal. lia.
  - rewrite IH. f_equal. lia.
Qed.
Lemma stems : (forall a b, a <> [] -> ~ In 46 b -> stem (a ++ 46 :: b) = a) /\ (forall b, ~ In 46 b -> stem b = b /\ stem (46 :: b) = 46 :: b).
Proof.
  split.
  - intros a b A N. unfold stem. rewrite last_dot_app by exact N. destruct a as [|c a]; [contradiction|]. change (0 + length (c :: a))%nat with (length (c :: a)). cbn [length]. f_equal.
    change (Datatypes.S (length a)) with (length (c :: a)). rewrite firstn_app, firstn_all, PeanoNat.Nat.sub_diag. cbn [firstn]. apply app_nil_r.
  - intros b N. unfold stem. split; [rewrite last_dot_none by exact N; reflexivity|]. change (46 :: b) with ([] ++ 46 :: b). rewrite last_dot_app by exact N. reflexivity.
Qed.
