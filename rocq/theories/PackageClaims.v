(** The registry means what its users mean, where names do not clash. *)
From Coq Require Import String.
From Verif Require Import Base ListFacts NameModel NameSpec NameProofs PackageModel PackageSpec PackageProofs.

Lemma meant_snoc h e : meant (h ++ [e]) = meant_step (meant h) e.
Proof. unfold meant. rewrite fold_left_app. reflexivity. Qed.
Lemma after_snoc h e : registry_after (h ++ [e]) = serve (registry_after h) (request_of e).
Proof. unfold registry_after, served. rewrite map_app, fold_left_app. reflexivity. Qed.

Lemma publish_serve r i given c : well_named i ->
  serve r (request_of (Publish i given c)) = insert r (kept_as i) (module_of i c).
Proof.
  destruct i as [p|n]; intros W; [|reflexivity]. cbn [request_of serve]. unfold create. cbn [m_pkg].
  destruct W as (G & N & _). unfold pkg_valid. destruct (p_name p); [congruence|]. destruct (p_group p); [congruence|].
  reflexivity.
Qed.
Lemma withdraw_serve r i : well_named i -> serve r (request_of (Withdraw i)) =
  match entry r (kept_as i) with Some _ => erase r (kept_as i) | None => r end.
Proof.
  intros W. destruct (delete_id i W) as (k & Q & S). cbn [request_of serve]. unfold delete. rewrite Q, S.
  destruct (entry r (kept_as i)); reflexivity.
Qed.

(** the invariant *)
Lemma known_snoc h e i : known (h ++ [e]) i <-> known h i \/ subject e = i.
Proof.
  unfold known. split.
  - intros (x & H & E). apply in_app_iff in H as [H|[->|[]]]; [left; eauto|right; exact E].
  - intros [(x & H & E)|E]; [exists x|exists e]; (split; [apply in_app_iff|exact E]); [auto|right; left; reflexivity].
Qed.
Definition inv (h : list event) (r : registry) : Prop :=
  ordered r /\
  (forall i, known h i -> entry r (kept_as i) = option_map (module_of i) (meant h i)) /\
  (forall e, In e r -> exists i c, known h i /\ e = (kept_as i, module_of i c)).

Lemma good_init h e : good (h ++ [e]) -> good h.
Proof.
  intros (W & D). apply Forall_app in W as [W _]. split; [exact W|].
  intros a b A B. apply D; apply in_app_iff; left; assumption.
Qed.
Lemma good_known h i : good h -> known h i -> well_named i.
Proof. intros (W & _) (e & H & <-). rewrite Forall_forall in W. exact (W e H). Qed.
Lemma good_distinct h i j : good h -> known h i -> known h j -> kept_as i = kept_as j -> i = j.
Proof. intros (_ & D) (a & A & <-) (b & B & <-). apply D; assumption. Qed.

Lemma not_known h : forall i, ~ known h i -> meant h i = None.
Proof.
  induction h as [|e h IH] using rev_ind; intros i N; [reflexivity|].
  rewrite known_snoc in N. rewrite meant_snoc.
  destruct e as [j g c|j]; cbn [meant_step]; destruct (ident_eq_dec j i) as [E|E];
    try reflexivity; try (destruct N; right; exact E); apply IH; tauto.
Qed.

Lemma after_inv h : good h -> inv h (registry_after h).
Proof.
  induction h as [|e h IH] using rev_ind; intros G.
  - split; [constructor|]. split; [|contradiction]. intros i (x & [] & _).
  - specialize (IH (good_init _ _ G)). destruct IH as (O & E & A). rewrite after_snoc.
    set (r := registry_after h) in *.
    assert (K : known (h ++ [e]) (subject e)) by (apply known_snoc; right; reflexivity).
    pose proof (good_known _ _ G K) as W.
    assert (NK : forall i, known (h ++ [e]) i -> entry r (kept_as i) = option_map (module_of i) (meant h i)).
    { intros i Ki. assert (Kd : known h i \/ ~ known h i).
      { assert (D : forall l, known l i \/ ~ known l i).
        { induction l as [|x l IHl]; [right; intros (y & [] & _)|]. destruct (ident_eq_dec (subject x) i) as [S|S].
          - left. exists x. split; [left; reflexivity|exact S].
          - destruct IHl as [(y & Hy & Sy)|N]; [left; exists y; split; [right; exact Hy|exact Sy]|].
            right. intros (y & [->|Hy] & Sy); [contradiction|]. apply N. exists y. auto. }
        exact (D h). }
      destruct Kd as [Kd|Kd]; [exact (E i Kd)|].
      rewrite (not_known h i Kd). cbn. destruct (entry r (kept_as i)) as [m|] eqn:Em; [|reflexivity].
      apply entry_in in Em; [|exact O]. destruct (A _ Em) as (j & c & Kj & Ej). injection Ej as E1 _.
      assert (i = j). { eapply good_distinct; [exact G|exact Ki|apply known_snoc; left; exact Kj|exact E1]. }
      subst j. contradiction. }
    destruct e as [i g c|i]; cbn [subject] in *.
    + rewrite publish_serve by exact W. split; [apply insert_ordered; exact O|]. split.
      * intros j Kj. rewrite entry_insert, meant_snoc. cbn [meant_step].
        destruct (text_eqb_spec (kept_as i) (kept_as j)) as [S|S].
        -- assert (i = j) by (eapply good_distinct; eassumption). subst j.
           destruct (ident_eq_dec i i); [reflexivity|congruence].
        -- destruct (ident_eq_dec i j) as [->|]; [congruence|]. apply NK. exact Kj.
      * intros x H. apply insert_in in H as [->|H]; [exists i, c; auto|].
        destruct (A x H) as (j & c' & Kj & Ej). exists j, c'. split; [apply known_snoc; left; exact Kj|exact Ej].
    + rewrite withdraw_serve by exact W.
      assert (Q : forall j, known (h ++ [Withdraw i]) j ->
                  entry r (kept_as j) = None \/ i <> j -> (forall x, i = j -> entry r (kept_as j) = Some x -> False) ->
                  entry r (kept_as j) = option_map (module_of j) (meant (h ++ [Withdraw i]) j)).
      { intros j Kj D N. rewrite meant_snoc. cbn [meant_step]. destruct (ident_eq_dec i j) as [->|Ne].
        - destruct D as [D|D]; [rewrite D; reflexivity|congruence].
        - apply NK. exact Kj. }
      destruct (entry r (kept_as i)) as [m|] eqn:Em.
      * split; [apply erase_ordered; exact O|]. split.
        -- intros j Kj. rewrite entry_erase, meant_snoc. cbn [meant_step].
           destruct (text_eqb_spec (kept_as i) (kept_as j)) as [S|S].
           ++ assert (i = j) by (eapply good_distinct; eassumption). subst j.
              destruct (ident_eq_dec i i); [reflexivity|congruence].
           ++ destruct (ident_eq_dec i j) as [->|]; [congruence|]. apply NK. exact Kj.
        -- intros x H. apply erase_in in H as [H _].
           destruct (A x H) as (j & c' & Kj & Ej). exists j, c'. split; [apply known_snoc; left; exact Kj|exact Ej].
      * split; [exact O|]. split.
        -- intros j Kj. apply Q; [exact Kj| |].
           ++ destruct (ident_eq_dec i j) as [->|Ne]; [left; exact Em|right; exact Ne].
           ++ intros x -> Hx. congruence.
        -- intros x H. destruct (A x H) as (j & c' & Kj & Ej). exists j, c'.
           split; [apply known_snoc; left; exact Kj|exact Ej].
Qed.

Lemma meant_known h i c : meant h i = Some c -> known h i.
Proof.
  induction h as [|e h IH] using rev_ind; [discriminate|]. rewrite meant_snoc, known_snoc.
  destruct e as [j g c'|j]; cbn [meant_step subject]; destruct (ident_eq_dec j i); auto; discriminate.
Qed.

(** ** what is listed *)
Lemma listed_iff h : good h -> forall i c, meant h i = Some c <-> known h i /\ In (kept_as i, module_of i c) (registry_after h).
Proof.
  intros G i c. destruct (after_inv h G) as (O & E & A). rewrite (entry_in _ _ _ O). split.
  - intros M. pose proof (meant_known h i c M) as K. split; [exact K|]. rewrite (E i K), M. reflexivity.
  - intros (K & M). rewrite (E i K) in M. destruct (meant h i) as [c'|]; [|discriminate].
    cbn in M. destruct i; injection M as ->; reflexivity.
Qed.
Lemma listed_all h : good h -> forall id m, In (id, m) (registry_after h) ->
  exists i c, meant h i = Some c /\ id = kept_as i /\ m = module_of i c /\ shown id m = name_of i.
Proof.
  intros G id m H. pose proof (after_inv h G) as (O & E & A). destruct (A _ H) as (i & c & K & Q).
  injection Q as -> ->. exists i, c. split; [apply listed_iff; auto|]. split; [reflexivity|].
  split; [reflexivity|]. destruct i; reflexivity.
Qed.
Lemma listed_names h : good h -> forall n,
  (exists id m, In (id, m) (registry_after h) /\ shown id m = n) <-> (exists i c, meant h i = Some c /\ name_of i = n).
Proof.
  intros G n. split.
  - intros (id & m & H & S). destruct (listed_all h G id m H) as (i & c & M & _ & _ & Q). exists i, c. split; [exact M|congruence].
  - intros (i & c & M & N). exists (kept_as i), (module_of i c). split; [apply listed_iff; auto|].
    destruct i; exact N.
Qed.

(** ** what a name is resolved to *)
Lemma resolve_found h k : good h -> forall id m, In (id, m) (registry_after h) -> is_match k id (m_pkg m) = true ->
  exists i c, meant h i = Some c /\ id = kept_as i /\ m = module_of i c /\
  match i with Plain n => n = k_name k | Package p => p_name p = k_name k end.
Proof.
  intros G id m H M. destruct (listed_all h G id m H) as (i & c & E & -> & -> & _). exists i, c.
  refine (conj E (conj eq_refl (conj eq_refl _))). destruct i as [p|n]; cbn in M.
  - apply (match_package k (kept_as (Package p)) p) in M as (N & _). symmetry. exact N.
  - apply (match_plain k n) in M. symmetry. exact M.
Qed.

Lemma plain_first p : text_ltb (kept_as (Plain (p_name p))) (kept_as (Package p)) = true.
Proof. cbn [kept_as]. change (text "-") with [45]. cbn [app]. apply ltb_prefix. Qed.

Lemma resolve_package h p : good h -> well_named (Package p) ->
  resolve (name_of (Package p)) (registry_after h) =
  match meant h (Plain (p_name p)) with
  | Some c => Some (mkM None c)
  | None => option_map (mkM (Some p)) (meant h (Package p))
  end.
Proof.
  intros G W. unfold resolve. rewrite (qualified_package p W). pose proof (after_inv h G) as (O & E & A).
  pose proof (find_first (fun e => is_match (key_of p) (fst e) (m_pkg (snd e))) _ O) as F.
  destruct (find _ (registry_after h)) as [[id m]|] eqn:Fi.
  - destruct F as (I1 & I2 & I3). cbn [fst snd] in *. cbn [option_map].
    destruct (resolve_found h (key_of p) G id m I1 I2) as (i & c & M & -> & -> & N).
    destruct i as [q|n].
    + apply match_key_of in I2. subst q.
      destruct (meant h (Plain (p_name p))) as [c'|] eqn:MP; [|rewrite M; reflexivity].
      apply listed_iff in MP as [_ MP]; [|exact G].
      destruct (I3 _ MP) as [Q|Q]; [apply match_plain; reflexivity|discriminate Q|].
      exfalso. cbn [fst] in Q. pose proof (plain_first p) as L.
      pose proof (ltb_trans _ _ _ Q L) as T. rewrite ltb_irrefl in T. discriminate T.
    + cbn in N. subst n. rewrite M. reflexivity.
  - cbn [option_map]. destruct (meant h (Plain (p_name p))) as [c|] eqn:MP.
    + apply listed_iff in MP as [_ MP]; [|exact G]. specialize (F _ MP). cbn in F. rewrite text_eqb_refl in F. discriminate F.
    + destruct (meant h (Package p)) as [c|] eqn:M; [|reflexivity]. apply listed_iff in M as [_ M]; [|exact G].
      specialize (F _ M). cbn [fst snd m_pkg module_of] in F.
      assert (T : is_match (key_of p) (kept_as (Package p)) (Some p) = true).
      { apply match_package. cbn. repeat split; congruence. }
      congruence.
Qed.

Lemma resolve_own h p : good h -> well_named (Package p) -> meant h (Plain (p_name p)) = None ->
  resolve (name_of (Package p)) (registry_after h) = option_map (mkM (Some p)) (meant h (Package p)).
Proof. intros G W N. rewrite (resolve_package h p G W), N. reflexivity. Qed.

Lemma resolve_plain h n c : good h -> meant h (Plain n) = Some c ->
  resolve n (registry_after h) = Some (mkM None c).
Proof.
  intros G M. pose proof (meant_known h _ _ M) as K. pose proof (good_known h _ G K) as W.
  unfold resolve. rewrite (qualified_plain n W). pose proof (after_inv h G) as (O & E & A).
  pose proof (find_first (fun e => is_match (mkKey n None None) (fst e) (m_pkg (snd e))) _ O) as F.
  apply listed_iff in M as [_ M]; [|exact G].
  assert (T : is_match (mkKey n None None) (kept_as (Plain n)) None = true) by (apply match_plain; reflexivity).
  destruct (find _ (registry_after h)) as [[id m]|] eqn:Fi.
  - destruct F as (I1 & I2 & I3). cbn [fst snd] in *.
    destruct (I3 _ M T) as [Q|Q].
    + injection Q as _ <-. reflexivity.
    + destruct (resolve_found h _ G id m I1 I2) as (i & c' & M' & -> & -> & N). cbn [fst k_name] in *.
      exfalso. destruct i as [p|n']; cbn [k_name] in N.
      * subst n. pose proof (plain_first p) as L.
        pose proof (ltb_trans _ _ _ Q L) as Z0. rewrite ltb_irrefl in Z0. discriminate Z0.
      * subst n'. rewrite ltb_irrefl in Q. discriminate Q.
  - specialize (F _ M). cbn [fst snd m_pkg module_of] in F. congruence.
Qed.

(** any name: the first of those that fit, by the name under which it is kept *)
Definition ask_key (a : ask) : key :=
  match a with
  | AskName n => mkKey n None None
  | AskGroup g n => mkKey n (Some g) None
  | AskExact p => key_of p
  end.
Lemma ask_qualified a : ask_ok a -> qualified (ask_text a) = Some (ask_key a).
Proof.
  destruct a as [n|g n|p]; cbn [ask_ok].
  - apply qualified_plain.
  - intros (G & N & A). apply qualified_group; assumption.
  - apply qualified_package.
Qed.
Lemma fits_match a i c : fits a i <-> is_match (ask_key a) (kept_as i) (m_pkg (module_of i c)) = true.
Proof.
  destruct i as [p|n]; cbn [m_pkg module_of fits].
  - rewrite (match_package (ask_key a) (kept_as (Package p)) p). destruct a as [n|g n|q]; cbn.
    + split; [intros H; repeat split; congruence|intros (H & _); congruence].
    + split; [intros (H1 & H2); repeat split; congruence|intros (H & G & _); specialize (G _ eq_refl); split; congruence].
    + split; [intros ->; repeat split; congruence|].
      intros (H & G & V). specialize (G _ eq_refl). specialize (V _ eq_refl). destruct p, q. cbn in *. congruence.
  - rewrite (match_plain (ask_key a) (kept_as (Plain n))). destruct a; cbn; split; congruence.
Qed.
Lemma resolve_any h a : good h -> ask_ok a ->
  match resolve (ask_text a) (registry_after h) with
  | Some m => exists i c, meant h i = Some c /\ m = module_of i c /\ fits a i /\
      forall j d, meant h j = Some d -> fits a j -> j = i \/ text_ltb (kept_as i) (kept_as j) = true
  | None => forall i, fits a i -> meant h i = None
  end.
Proof.
  intros G Q. unfold resolve. rewrite (ask_qualified a Q). pose proof (after_inv h G) as (O & E & A).
  pose proof (find_first (fun e => is_match (ask_key a) (fst e) (m_pkg (snd e))) _ O) as F.
  destruct (find _ (registry_after h)) as [[id m]|] eqn:Fi.
  - destruct F as (I1 & I2 & I3). cbn [fst snd] in *.
    destruct (resolve_found h (ask_key a) G id m I1 I2) as (i & c & M & -> & -> & N).
    exists i, c. refine (conj M (conj eq_refl (conj (proj2 (fits_match a i c) I2) _))).
    intros j d Mj Fj. apply (listed_iff h G) in Mj as [Kj Hj].
    destruct (I3 _ Hj (proj1 (fits_match a j d) Fj)) as [S|S]; [left|right; exact S].
    injection S as S _. apply (good_distinct h j i G Kj (meant_known h _ _ M) S).
  - intros i Fit. destruct (meant h i) as [c|] eqn:M; [|reflexivity].
    apply (listed_iff h G) in M as [_ M]. specialize (F _ M). cbn [fst snd] in F.
    apply (fits_match a i c) in Fit. congruence.
Qed.

(** ** lists and answers *)
Lemma keys_asks l : Forall ask_ok l -> exists ks, keys_of (map ask_text l) = Some ks /\ length ks = length l /\
  forall i c, existsb (fun k => is_match k (kept_as i) (m_pkg (module_of i c))) ks = true <-> exists a, In a l /\ fits a i.
Proof.
  induction 1 as [|a l Q F (ks & K & L & E)]; cbn [map keys_of].
  - exists []. split; [reflexivity|]. split; [reflexivity|]. intros i c. cbn. split; [discriminate|].
    intros (a & [] & _).
  - rewrite (ask_qualified a Q), K. eexists. split; [reflexivity|]. cbn [length]. split; [congruence|].
    intros i c. cbn [existsb]. rewrite orb_true_iff, E, <- (fits_match a i c). cbn [In]. split.
    + intros [H|(b & I0 & H)]; eauto.
    + intros (b & [->|I0] & H); eauto.
Qed.
Lemma list_any h l : good h -> Forall ask_ok l -> exists out, list_modules (map ask_text l) (registry_after h) = Some out /\
  forall i c, known h i ->
    (In (kept_as i, module_of i c) out <-> meant h i = Some c /\ (l = [] \/ exists a, In a l /\ fits a i)).
Proof.
  intros G Q. unfold list_modules. destruct (keys_asks l Q) as (ks & K & L & E). rewrite K.
  destruct ks as [|k ks].
  - eexists. split; [reflexivity|]. intros i c N. rewrite (listed_iff h G). 
    destruct l; [|discriminate L]. tauto.
  - eexists. split; [reflexivity|]. intros i c N. rewrite filter_In. cbn [fst snd].
    rewrite E, (listed_iff h G). destruct l; [discriminate L|]. intuition discriminate.
Qed.
Lemma no_version_parse v : no_version v -> parse_version (fst (split_on 64 v)) = None.
Proof.
  intros [->|(c & t & -> & Lc & N1 & N2)]; [reflexivity|]. unfold letter in Lc.
  cbn [split_on]. destruct (split_on 64 t) as [x y]. destruct (Z.eqb_spec c 64); [reflexivity|]. cbn [fst].
  unfold parse_version. cbn [split_on]. destruct (split_on 46 x) as [x' y'].
  destruct (Z.eqb_spec c 46); [lia|]. unfold parse_number. cbn [parse_digits].
  destruct (_ && _) eqn:D; [lia|reflexivity].
Qed.
Lemma no_version_none g n v : ~ In 47 g -> ~ In 47 n -> ~ In 64 n -> ~ In 47 v -> no_version v ->
  qualified (g ++ text "/" ++ n ++ text "@" ++ v) = None.
Proof.
  intros A B C D V. unfold qualified. change (text "/") with [47]. change (text "@") with [64]. cbn [app].
  rewrite (split_some 47 g _ A).
  assert (N : ~ In 47 (n ++ 64 :: v)).
  { rewrite in_app_iff. cbn [In]. intros [H|[H|H]]; [auto|discriminate H|auto]. }
  rewrite (split_none 47 _ N), (split_some 64 n v C). pose proof (no_version_parse v V) as P.
  destruct (split_on 64 v) as [x y]. cbn [fst] in P. rewrite P. reflexivity.
Qed.
Lemma no_version_nothing g n v r : ~ In 47 g -> ~ In 47 n -> ~ In 64 n -> ~ In 47 v -> no_version v ->
  let name := g ++ text "/" ++ n ++ text "@" ++ v in resolve name r = None /\ list_modules [name] r = None.
Proof.
  intros A B C D V. cbn zeta. unfold resolve, list_modules. cbn [keys_of].
  rewrite (no_version_none g n v A B C D V). split; reflexivity.
Qed.
Lemma delete_answer h i : good h -> known h i ->
  fst (delete (name_of i) (registry_after h)) = match meant h i with Some _ => Done (name_of i) | None => NotFound end.
Proof.
  intros G K. destruct (delete_id i (good_known h i G K)) as (k & Q & S). unfold delete. rewrite Q, S.
  destruct (after_inv h G) as (_ & E & _). rewrite (E i K). destruct (meant h i); reflexivity.
Qed.
Lemma create_refused r given g n v c : g = [] \/ n = [] ->
  create given (mkM (Some (mkPkg g n v)) c) r = (Refused, r).
Proof. unfold create, pkg_valid. cbn. intros [->| ->]; [destruct n|]; reflexivity. Qed.

(** ** where the names clash, and where they cannot *)
Lemma app_last_inj c (a b a' b' : bytes) : ~ In c b -> ~ In c b' -> a ++ c :: b = a' ++ c :: b' -> a = a' /\ b = b'.
Proof.
  intros N N' E. pose proof (proj2 (split_last_spec c (a ++ [c] ++ b) a b) (conj eq_refl N)) as S.
  pose proof (proj2 (split_last_spec c (a' ++ [c] ++ b') a' b') (conj eq_refl N')) as S'.
  cbn [app] in S, S'. rewrite E in S. rewrite S in S'. injection S' as -> ->. auto.
Qed.
Lemma tidy_distinct i j : well_named i -> well_named j -> tidy i -> tidy j -> kept_as i = kept_as j -> i = j.
Proof.
  assert (VD : forall p, well_named (Package p) -> ~ In 45 (print_version (p_version p))).
  { intros p (_ & _ & _ & _ & _ & V). apply print_version_not; [exact V|unfold is_digit; lia|lia]. }
  assert (PP : forall p n, well_named (Package p) -> ~ In 46 n \/ ~ In 45 n -> kept_as (Package p) = n -> False).
  { intros p n W [D|D] E; apply D; rewrite <- E; cbn [kept_as]; change (text "-") with [45]; rewrite !in_app_iff.
    - right. right. right. right. apply print_version_dot.
    - right. left. left. reflexivity. }
  destruct i as [p|n], j as [q|n']; cbn [tidy]; intros Wi Wj Ti Tj E.
  - cbn [kept_as] in E. change (text "-") with [45] in E. cbn [app] in E.
    replace (p_name p ++ 45 :: p_group p ++ 45 :: print_version (p_version p))
      with ((p_name p ++ 45 :: p_group p) ++ 45 :: print_version (p_version p)) in E by (rewrite <- app_assoc; reflexivity).
    replace (p_name q ++ 45 :: p_group q ++ 45 :: print_version (p_version q))
      with ((p_name q ++ 45 :: p_group q) ++ 45 :: print_version (p_version q)) in E by (rewrite <- app_assoc; reflexivity).
    apply app_last_inj in E as [E1 E2]; [|apply VD; exact Wi|apply VD; exact Wj].
    apply app_last_inj in E1 as [E0 E1]; [|exact Ti|exact Tj].
    apply print_version_inj in E2; [|exact (proj2 (proj2 (proj2 (proj2 (proj2 Wi)))))|exact (proj2 (proj2 (proj2 (proj2 (proj2 Wj)))))].
    destruct p, q. cbn in *. congruence.
  - destruct (PP p n' Wi Tj E).
  - destruct (PP q n Wj Ti (eq_sym E)).
  - cbn in E. congruence.
Qed.
Lemma tidy_good h : Forall (fun e => well_named (subject e) /\ tidy (subject e)) h -> good h.
Proof.
  intros F. rewrite Forall_forall in F. split; [apply Forall_forall; intros e H; apply (F e H)|].
  intros a b A B. apply tidy_distinct; apply F; assumption.
Qed.

(** ** the check of a topic with deduplication *)
Lemma loaded_iff h i : good h -> known h i -> loaded (name_of i) (registry_after h) = true <-> meant h i <> None.
Proof.
  intros G K. destruct (delete_id i (good_known h i G K)) as (k & Q & S). unfold loaded. rewrite Q, S.
  destruct (after_inv h G) as (_ & E & _). rewrite (E i K). destruct (meant h i); cbn; split; congruence.
Qed.
Lemma loaded_resolves h i : good h -> known h i -> loaded (name_of i) (registry_after h) = true ->
  resolve (name_of i) (registry_after h) <> None.
Proof.
  intros G K L. apply (loaded_iff h i G K) in L. destruct (meant h i) as [c|] eqn:M; [|congruence].
  destruct i as [p|n].
  - rewrite (resolve_package h p G (good_known h _ G K)), M. destruct (meant h (Plain (p_name p))); discriminate.
  - change (name_of (Plain n)) with n. rewrite (resolve_plain h n c G M). discriminate.
Qed.

(** ** a history with five modules, and the counterexamples *)
Definition pk (g n : string) (a b c : Z) : ident := Package (mkPkg (text g) (text n) (a, b, c)).
Definition a_history : list event :=
  [Publish (pk "acme" "my-filter" 0 1 0) (text "x") 1; Publish (pk "acme" "my-filter" 0 2 0) [] 2;
   Publish (Plain (text "my-map")) [] 3; Publish (pk "other" "my-filter" 1 0 0) [] 4;
   Withdraw (pk "acme" "my-filter" 0 1 0); Publish (Plain (text "local.test")) [] 5; Publish (Plain (text "my-map")) [] 6].

Ltac no_in := let H := fresh in intros H; vm_compute in H;
  repeat (destruct H as [H|H]; [discriminate H|]); exact H.
Ltac named := first [no_in | refine (conj _ (conj _ (conj _ (conj _ (conj _ _))))); [discriminate|discriminate|no_in|no_in|no_in|];
  unfold u64; cbn; lia].

Lemma a_history_good : good a_history.
Proof.
  apply tidy_good. repeat (constructor; [split; [cbn -[text In]; named|cbn -[text In]; first [no_in|left; no_in|right; no_in]]|]). constructor.
Qed.
Lemma a_history_meant : meant a_history (pk "acme" "my-filter" 0 2 0) = Some 2 /\
  meant a_history (pk "acme" "my-filter" 0 1 0) = None /\ meant a_history (Plain (text "my-map")) = Some 6 /\
  meant a_history (Plain (text "my-filter")) = None.
Proof. refine (conj _ (conj _ (conj _ _))); vm_compute; reflexivity. Qed.
Lemma a_package_named : well_named (pk "acme" "my-filter" 0 2 0).
Proof. cbn -[text In]. named. Qed.

(** a plain module stands in front of every package of that name *)
Lemma hidden : exists h p c, good h /\ meant h (Package p) = Some c /\
  exists d, d <> c /\ resolve (name_of (Package p)) (registry_after h) = Some (mkM None d).
Proof.
  exists [Publish (pk "acme" "filter" 1 0 0) [] 1; Publish (Plain (text "filter")) [] 2],
    (mkPkg (text "acme") (text "filter") (1, 0, 0)), 1.
  refine (conj _ (conj _ _)).
  - apply tidy_good. repeat (constructor; [split; [cbn -[text In]; named|cbn -[text In]; first [no_in|left; no_in]]|]). constructor.
  - vm_compute; reflexivity.
  - exists 2. split; [discriminate|vm_compute; reflexivity].
Qed.

(** without a version, the oldest may be taken *)
Lemma oldest : exists h g n v w c d, good h /\ newer w v /\
  meant h (Package (mkPkg g n v)) = Some c /\ meant h (Package (mkPkg g n w)) = Some d /\
  resolve (g ++ text "/" ++ n) (registry_after h) = Some (mkM (Some (mkPkg g n v)) c).
Proof.
  exists [Publish (pk "acme" "filter" 0 1 0) [] 1; Publish (pk "acme" "filter" 0 2 0) [] 2],
    (text "acme"), (text "filter"), (0, 1, 0), (0, 2, 0), 1, 2.
  refine (conj _ (conj _ (conj _ (conj _ _)))).
  - apply tidy_good. repeat (constructor; [split; [cbn -[text In]; named|cbn -[text In]; no_in]|]). constructor.
  - cbn. lia.
  - vm_compute; reflexivity.
  - vm_compute; reflexivity.
  - vm_compute; reflexivity.
Qed.
(** and a module of somebody else can take the place of a name in use *)
Lemma taken_over : exists h i j n c d, let h' := h ++ [Publish j [] d] in good h' /\ i <> j /\ c <> d /\
  resolve n (registry_after h) = Some (module_of i c) /\ meant h' i = Some c /\
  resolve n (registry_after h') = Some (module_of j d).
Proof.
  exists [Publish (pk "acme" "filter" 1 0 0) [] 1], (pk "acme" "filter" 1 0 0), (pk "aaa" "filter" 1 0 0),
    (text "filter"), 1, 2.
  refine (conj _ (conj _ (conj _ (conj _ (conj _ _))))); [| | |vm_compute; reflexivity ..].
  - apply tidy_good. cbn [app]. repeat (constructor; [split; [cbn -[text In]; named|cbn -[text In]; no_in]|]). constructor.
  - vm_compute. discriminate.
  - discriminate.
Qed.
(** a version without a group is not looked at *)
Lemma no_group : exists h p c, good h /\ meant h (Package p) = Some c /\
  resolve (p_name p ++ text "@" ++ print_version (p_version p)) (registry_after h) = None.
Proof.
  exists [Publish (pk "acme" "filter" 1 0 0) [] 1], (mkPkg (text "acme") (text "filter") (1, 0, 0)), 1.
  refine (conj _ (conj _ _)); [|vm_compute; reflexivity|vm_compute; reflexivity].
  apply tidy_good. repeat (constructor; [split; [cbn -[text In]; named|cbn -[text In]; no_in]|]). constructor.
Qed.

(** two packages under one name: publishing one removes the other *)
Lemma clash : exists i j c d, well_named i /\ well_named j /\ i <> j /\
  let h := [Publish i [] c; Publish j [] d] in
  meant h i = Some c /\ resolve (name_of i) (registry_after h) = None /\ length (registry_after h) = 1%nat.
Proof.
  exists (pk "b-c" "a" 1 0 0), (pk "c" "a-b" 1 0 0), 1, 2.
  refine (conj _ (conj _ (conj _ (conj _ (conj _ _))))); [| | |vm_compute; reflexivity ..].
  - cbn -[text In]. named.
  - cbn -[text In]. named.
  - vm_compute. discriminate.
Qed.
Lemma clash_plain : exists p n c d, well_named (Package p) /\ well_named (Plain n) /\
  let h := [Publish (Package p) [] c; Publish (Plain n) [] d] in
  meant h (Package p) = Some c /\ resolve (name_of (Package p)) (registry_after h) = None.
Proof.
  exists (mkPkg (text "acme") (text "filter") (1, 0, 0)), (text "filter-acme-1.0.0"), 1, 2.
  refine (conj _ (conj _ (conj _ _))); [| |vm_compute; reflexivity ..].
  - cbn -[text In]. named.
  - cbn -[text In]. no_in.
Qed.

(** a name that is listed and runs, but cannot be deleted *)
Lemma cannot_delete : exists h n m id, good h /\ list_modules [n] (registry_after h) = Some [(id, m)] /\
  resolve n (registry_after h) = Some m /\ delete n (registry_after h) = (NotFound, registry_after h).
Proof.
  exists [Publish (pk "acme" "filter" 1 0 0) [] 1], (text "filter"),
    (mkM (Some (mkPkg (text "acme") (text "filter") (1, 0, 0))) 1), (text "filter-acme-1.0.0").
  refine (conj _ (conj _ (conj _ _))); [|vm_compute; reflexivity ..].
  apply tidy_good. repeat (constructor; [split; [cbn -[text In]; named|cbn -[text In]; no_in]|]). constructor.
Qed.
(** a deduplication filter that passes the check and is not found by the node *)
Lemma check_passes : exists h uses, good h /\ loaded uses (registry_after h) = true /\ resolve uses (registry_after h) = None.
Proof.
  exists [Publish (pk "acme" "dedup" 1 0 0) [] 1], (text "dedup-acme-1.0.0").
  refine (conj _ (conj _ _)); [|vm_compute; reflexivity ..].
  apply tidy_good. repeat (constructor; [split; [cbn -[text In]; named|cbn -[text In]; no_in]|]). constructor.
Qed.
(** and one that the node would find and the check refuses *)
Lemma check_refuses : exists h uses, good h /\ loaded uses (registry_after h) = false /\ resolve uses (registry_after h) <> None.
Proof.
  exists [Publish (pk "acme" "dedup" 1 0 0) [] 1], (text "acme/dedup").
  refine (conj _ (conj _ _)); [|vm_compute; reflexivity|vm_compute; discriminate].
  apply tidy_good. repeat (constructor; [split; [cbn -[text In]; named|cbn -[text In]; no_in]|]). constructor.
Qed.

Lemma latest_no_version : no_version (text "latest") /\ ~ In 47 (text "latest").
Proof.
  split.
  - right. exists 108, (text "atest"). unfold letter. refine (conj eq_refl (conj _ (conj _ _))); [right; lia|lia|lia].
  - change (text "latest") with [108; 97; 116; 101; 115; 116]. cbn. lia.
Qed.
Lemma two_filters : Forall ask_ok [AskName (text "my-map"); AskGroup (text "other") (text "my-filter")] /\
  option_map (@length _) (list_modules (map ask_text [AskName (text "my-map"); AskGroup (text "other") (text "my-filter")])
    (registry_after a_history)) = Some 2%nat.
Proof.
  split; [|vm_compute; reflexivity]. repeat constructor; cbn; lia.
Qed.
