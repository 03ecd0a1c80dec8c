(** Claims on connectors. *)
From Coq Require Import ZArith List Bool Lia FinFun.
Import ListNotations.
From Verif Require Import Base ListFacts ConnModel ConnSpec ConnProofs.
Open Scope Z_scope.

(** "a", "b", "K", "x" *)
Definition a : text := [97].
Definition b : text := [98].
Definition K : text := [75].
Definition x : text := [120].
(** "http-source", "1" *)
Definition http_source : text := [104; 116; 116; 112; 45; 115; 111; 117; 114; 99; 101].
Definition one : text := [49].
(** configs *)
Definition plain (v : version) (secrets : list text) (n : option consumer) : config := mkConfig v a http_source b 7 one n secrets [].
Definition reads (p : partitions) (bytes : option Z) (id : option text) (o : option offsets) : config := plain V1 [] (Some (mkConsumer p bytes id o)).

(** * Configs *)

Lemma accepted : forall k v c r, validate_config k v c = Some r <->
  c = Some r /\ (forall n, In n (declared r) -> valid_name n = true) /\
  (forall s, u_schema (k_custom k) = Some s -> complete s /\ forall p, needed s p -> value_at (custom_part (u_name (k_custom k)) v) p <> None) /\
  k_direction k = direction_of r /\
  ((p_image (k_deployment k) = None /\ p_binary (k_deployment k) <> None) \/ (p_image (k_deployment k) = Some (image_of r) /\ p_binary (k_deployment k) = None)).
Proof.
  intros k v c r.
  assert (U : validate_custom (k_custom k) v = true <-> forall s, u_schema (k_custom k) = Some s -> complete s /\ forall p, needed s p -> value_at (custom_part (u_name (k_custom k)) v) p <> None).
  { unfold validate_custom. destruct (u_schema (k_custom k)) as [s|].
    - rewrite validate_exactly. split; [intros H s' E; injection E as <-; exact H | intros H; now apply H].
    - split; [intros _ s E; discriminate | reflexivity]. }
  assert (D : forall c, validate_direction (k_direction k) c = true <-> k_direction k = direction_of c).
  { intros c0. unfold validate_direction. rewrite andb_true_iff, !Bool.eqb_true_iff. destruct (k_direction k) as [s1 e1], (direction_of c0) as [s2 e2]. cbn [d_source d_dest]. split; [intros [-> ->]; reflexivity | intros E; injection E as -> ->; auto]. }
  assert (P : forall c, validate_deployment (k_deployment k) c = true <-> (p_image (k_deployment k) = None /\ p_binary (k_deployment k) <> None) \/ (p_image (k_deployment k) = Some (image_of c) /\ p_binary (k_deployment k) = None)).
  { intros c0. unfold validate_deployment. destruct (p_image (k_deployment k)) as [i|], (p_binary (k_deployment k)) as [j|].
    - split; [discriminate | intros [[X _] | [_ X]]; discriminate].
    - rewrite same_iff. split; [intros ->; right; auto | intros [[X _] | [X _]]; [discriminate | now injection X]].
    - split; [intros _; left; split; [reflexivity | discriminate] | reflexivity].
    - split; [discriminate | intros [[_ X] | [X _]]; [congruence | discriminate]]. }
  unfold validate_config. destruct (validate_custom (k_custom k) v) eqn:E.
  - pose proof (proj1 U eq_refl) as U'. destruct c as [c|].
    + destruct (forallb valid_name (declared c) && validate_direction (k_direction k) c && validate_deployment (k_deployment k) c) eqn:F.
      * apply andb_true_iff in F as [F F3]. apply andb_true_iff in F as [F1 F2]. rewrite forallb_forall in F1. apply D in F2. apply P in F3. split.
        -- intros H. injection H as <-. exact (conj eq_refl (conj F1 (conj U' (conj F2 F3)))).
        -- intros (H & _). exact H.
      * split; [discriminate|]. intros (H & N & _ & F2 & F3). injection H as <-. apply D in F2. apply P in F3. rewrite F2, F3, !andb_true_r in F.
        assert (forallb valid_name (declared c) = true) by (now apply forallb_forall). congruence.
    + split; [discriminate | intros (H & _); discriminate].
  - split; [discriminate|]. intros (_ & _ & H & _). apply U in H. discriminate.
Qed.
Lemma ways : forall k v c r, validate_config k v c = Some r -> d_source (k_direction k) = negb (d_dest (k_direction k)) /\
  (d_source (k_direction k) = true <-> exists t, c_type r = t ++ source_suffix).
Proof.
  intros k v c r H. apply accepted in H as (_ & _ & _ & D & _). rewrite D. unfold direction_of. destruct (ends_with source_suffix (c_type r)) eqn:E.
  - split; [reflexivity|]. split; [intros _ | reflexivity]. unfold ends_with in E. apply same_iff in E. exists (firstn (length (c_type r) - length source_suffix) (c_type r)). rewrite <- E at 2. symmetry. apply firstn_skipn.
  - split; [reflexivity|]. split; [discriminate|]. intros (t & F). exfalso. rewrite F in E. unfold ends_with in E. rewrite app_length, Nat.add_sub, skipn_app, skipn_all, Nat.sub_diag in E. cbn [app skipn] in E. rewrite same_refl in E. discriminate.
Qed.
Definition port : schema := Object true [(a, Some (Type_ 1))] [a].
Lemma types : exists s v p t w, complete s /\ needed s p /\ leads s p (Type_ t) /\ value_at v p = Some w /\ validate_schema s v = true /\ forall w', exists v', value_at v' p = Some w' /\ validate_schema s v' = true.
Proof.
  exists port, (YMap [(a, YNum 1)]), [a], 1, (YNum 1). split; [|split; [|split; [|split; [|split]]]].
  - apply (validate_exactly port (YMap [(a, YNum 1)])). reflexivity.
  - exists [], a, port. split; [reflexivity|]. split; [constructor | now left].
  - econstructor; [now left | reflexivity | constructor].
  - reflexivity.
  - reflexivity.
  - intros w'. exists (YMap [(a, w')]). split; reflexivity.
Qed.
Lemma optional : exists s k t v, property s k = Some (Some t) /\ ~ In k (required_of s) /\ (exists w, value_at v [k] = Some w /\ validate_schema t w = false) /\ validate_schema s v = true.
Proof.
  exists (Object true [(b, Some port); (a, Some (Type_ 1))] [a]), b, port, (YMap [(a, YNum 1); (b, YMap [])]). split; [reflexivity|]. split; [intros [X | []]; discriminate|]. split; [|reflexivity]. exists (YMap []). split; reflexivity.
Qed.

(** * Secrets *)

Lemma valid_name_exactly : forall n, valid_name n = true <-> exists c r, n = c :: r /\ ~ (48 <= c <= 57) /\
  forall y, In y n -> (48 <= y <= 57) \/ (65 <= y <= 90) \/ (97 <= y <= 122) \/ y = 95.
Proof.
  intros n. destruct n as [|c r]; [split; [discriminate | intros (c & r & X & _); discriminate]|]. unfold valid_name. rewrite andb_true_iff, forallb_forall, negb_true_iff. split.
  - intros [H D]. exists c, r. split; [reflexivity|]. unfold digit, letter in *. rewrite andb_false_iff, !Z.leb_gt in D. split; [lia|]. intros y Y. specialize (H y Y). rewrite !orb_true_iff, !andb_true_iff, !Z.leb_le, Z.eqb_eq in H. lia.
  - intros (c' & r' & E & D & H). injection E as <- <-. unfold digit, letter. split; [|rewrite andb_false_iff, !Z.leb_gt; lia]. intros y Y. specialize (H y Y). rewrite !orb_true_iff, !andb_true_iff, !Z.leb_le, Z.eqb_eq. lia.
Qed.
Lemma file_exact : forall l n v, (forall e, In e l -> valid_name (fst e) = true /\ ~ In 10 (snd e)) -> valid_name n = true -> lookup n l = Some v -> bare v -> read_file (file_of l) n = Some v.
Proof. intros l n v H V L B. rewrite file_read by assumption. rewrite L. cbn [option_map]. now rewrite trim_bare. Qed.
Lemma file_absent : forall l n, (forall e, In e l -> valid_name (fst e) = true /\ ~ In 10 (snd e)) -> valid_name n = true -> ~ In n (map fst l) -> read_file (file_of l) n = None.
Proof.
  intros l n H V N. rewrite file_read by assumption. destruct (lookup n l) as [v|] eqn:E; [|reflexivity]. exfalso. apply N. apply lookup_in in E. apply in_map_iff. exists (n, v). auto.
Qed.
Lemma rendered_file : forall l env c t out, (forall e, In e l -> valid_name (fst e) = true /\ ~ In 10 (snd e) /\ bare (snd e)) ->
  (forall n, In n (declared c) -> valid_name n = true) ->
  (render (store (Some (file_of l)) env) c t = Some out <->
   (forall n, In n (declared c) -> In n (map fst l)) /\ (forall n, In (Use n) t -> In n (declared c)) /\ filled (fun n => lookup n l) t out).
Proof.
  intros l env c t out H V. rewrite render_exactly. cbn [store].
  assert (R : forall n, In n (declared c) -> read_file (file_of l) n = lookup n l).
  { intros n X. rewrite file_read; [|intros e Y; destruct (H e Y) as (A1 & A2 & _); auto | now apply V]. destruct (lookup n l) as [v|] eqn:E; [|reflexivity]. cbn [option_map].
    apply lookup_in in E. destruct (H _ E) as (_ & _ & B). cbn [snd] in B. now rewrite trim_bare. }
  assert (M : forall n, lookup n l <> None <-> In n (map fst l)).
  { intros n. clear. induction l as [|[k v] l IH]; [cbn; split; [congruence | intros []]|]. cbn [lookup map fst]. destruct (same k n) eqn:S.
    - apply same_iff in S. split; [now left | discriminate].
    - rewrite IH. split; [now right|]. intros [X | X]; [|exact X]. apply same_iff in X. congruence. }
  split.
  - intros (A1 & A2 & F). split; [|split; [exact A2|]].
    + intros n X. apply M. rewrite <- R by exact X. now apply A1.
    + refine (filled_ext _ _ _ _ _ F). intros n X. apply R. now apply A2.
  - intros (A1 & A2 & F). split; [|split; [exact A2|]].
    + intros n X. rewrite R by exact X. apply M. now apply A1.
    + refine (filled_ext _ _ _ _ _ F). intros n X. symmetry. apply R. now apply A2.
Qed.
Lemma rendered_env : forall env c t out, render (store None env) c t = Some out <->
  (forall n, In n (declared c) -> In n (map fst env)) /\ (forall n, In (Use n) t -> In n (declared c)) /\ filled (fun n => lookup n env) t out.
Proof.
  intros env c t out. rewrite render_exactly. cbn [store].
  assert (M : forall n, read_env env n <> None <-> In n (map fst env)).
  { intros n. unfold read_env. clear. induction env as [|[k v] l IH]; [cbn; split; [congruence | intros []]|]. cbn [lookup map fst]. destruct (same k n) eqn:S.
    - apply same_iff in S. split; [now left | discriminate].
    - rewrite IH. split; [now right|]. intros [X | X]; [|exact X]. apply same_iff in X. congruence. }
  split; intros (A1 & A2 & F); (split; [intros n X; apply M; now apply A1 | split; [exact A2 | exact F]]).
Qed.
Lemma file_space : exists n v, valid_name n = true /\ ~ In 10 v /\ read_file (file_of [(n, v)]) n <> Some v /\ read_env [(n, v)] n = Some v.
Proof. exists K, [97; 32]. split; [reflexivity|]. split; [intros [X | [X | []]]; discriminate|]. split; [vm_compute; discriminate | reflexivity]. Qed.
Lemma file_newline : exists n v m, valid_name n = true /\ valid_name m = true /\ n <> m /\ bare v /\ read_file (file_of [(n, v)]) n <> Some v /\ read_file (file_of [(n, v)]) m <> None.
Proof. exists K, ([97; 10; 120; 61; 49]), x. repeat split; try reflexivity; vm_compute; discriminate. Qed.
Lemma unversioned : forall st c t n, c_version c = V0 -> In (Use n) t -> render st c t = None.
Proof.
  intros st c t n V U. destruct (render st c t) as [out|] eqn:E; [|reflexivity]. apply render_exactly in E as (_ & A2 & _). apply A2 in U. unfold declared in U. rewrite V in U. contradiction.
Qed.
Lemma unversioned_case : exists st c t n, c_version c = V0 /\ In n (c_secrets c) /\ st n <> None /\ In (Use n) t /\ render st c t = None.
Proof. exists (store None [(K, a)]), (plain V0 [K] None), [Use K], K. repeat split; try (now left); vm_compute; discriminate. Qed.
Lemma structure : forall c n before after y, c_version c <> V0 -> c_secrets c = [n] ->
  exists env, render (store None env) c [Text before; Use n; Text after] = render (store None []) (plain V1 [] None) [Text (before ++ y ++ after)].
Proof.
  intros c n before after y V S. exists [(n, y)]. unfold render, declared. rewrite S. destruct (c_version c); [congruence | |]; cbn; unfold read_env; cbn [lookup]; rewrite same_refl; cbn [lookup]; rewrite same_refl, !app_nil_r; reflexivity.
Qed.
Lemma structure_case : exists c n before after y, c_version c <> V0 /\ c_secrets c = [n] /\ In 10 y /\
  render (store None [(n, y)]) c [Text before; Use n; Text after] = Some (before ++ y ++ after).
Proof. exists (plain V1 [K] None), K, a, b, [97; 10; 120; 58; 32; 49]. split; [discriminate|]. split; [reflexivity|]. split; [vm_compute; auto 7 | reflexivity]. Qed.

(** * Requests *)

Lemma taken : forall c q, consumer_request c = Some q -> q_topic q = c_topic c /\ q_modules q = c_transforms c /\
  q_id q = (match c_consumer c with Some n => n_id n | None => None end) /\
  (forall n o, c_consumer c = Some n -> n_offsets n = Some o -> q_strategy q = f_strategy o /\ q_flush q = f_flush o /\ forall s, f_start o = Some s -> q_start q = s) /\
  ((forall n o, c_consumer c = Some n -> n_offsets n = Some o -> f_start o = None) -> q_start q = End) /\
  ((forall n, c_consumer c = Some n -> n_offsets n = None) -> q_strategy q = NoOffsets /\ q_flush q = None).
Proof.
  intros c q H. unfold consumer_request in H. cbv zeta in H.
  match type of H with (if ?x then _ else _) = _ => destruct x; [discriminate|] end.
  match type of H with (if ?x then _ else _) = _ => destruct x; [discriminate|] end.
  injection H as <-. cbn [q_topic q_modules q_id q_strategy q_flush q_start]. split; [reflexivity|]. split; [reflexivity|]. split; [reflexivity|].
  destruct (c_consumer c) as [n|].
  - split; [|split].
    + intros n' o E F. injection E as <-. rewrite F. repeat split. intros s ->. reflexivity.
    + intros G. destruct (n_offsets n) as [o|] eqn:F; [|reflexivity]. now rewrite (G n o eq_refl F).
    + intros G. rewrite (G n eq_refl). auto.
  - split; [intros n o X; discriminate|]. split; auto.
Qed.
Lemma opens : forall c q count p, consumer_request c = Some q -> 0 <= count -> (forall n, c_consumer c = Some n -> n_partitions n <> Many []) -> (In p (opened q count) <-> named c count p).
Proof.
  intros c q count p H C N. unfold consumer_request in H. cbv zeta in H.
  match type of H with (if ?x then _ else _) = _ => destruct x; [discriminate|] end.
  match type of H with (if ?x then _ else _) = _ => destruct x; [discriminate|] end.
  injection H as <-. unfold opened, named. cbn [q_partitions].
  assert (R : In p (map Z.of_nat (seq 0 (Z.to_nat count))) <-> 0 <= p < count).
  { rewrite in_map_iff. split; [intros (i & <- & I); apply in_seq in I; lia | intros L; exists (Z.to_nat p); rewrite in_seq; lia]. }
  destruct (c_consumer c) as [n|]; [|exact R]. specialize (N n eq_refl). destruct (n_partitions n) as [|p0|[|p0 l]]; [exact R | | congruence | reflexivity].
  cbn [In]. intuition.
Qed.
Lemma opens_once : forall c q count, consumer_request c = Some q -> (forall n l, c_consumer c = Some n -> n_partitions n = Many l -> NoDup l) -> NoDup (opened q count).
Proof.
  intros c q count H N. unfold consumer_request in H. cbv zeta in H.
  match type of H with (if ?x then _ else _) = _ => destruct x; [discriminate|] end.
  match type of H with (if ?x then _ else _) = _ => destruct x; [discriminate|] end.
  injection H as <-. unfold opened. cbn [q_partitions].
  assert (R : NoDup (map Z.of_nat (seq 0 (Z.to_nat count)))) by (apply FinFun.Injective_map_NoDup; [intros i j; lia | apply seq_NoDup]).
  destruct (c_consumer c) as [n|]; [|exact R]. specialize (N n). destruct (n_partitions n) as [|p0|[|p0 l]]; [exact R | | exact R | now apply N].
  constructor; [intros [] | constructor].
Qed.
Lemma opens_all : exists c q, c_consumer c = Some (mkConsumer (Many []) None None None) /\ consumer_request c = Some q /\ opened q 3 = [0; 1; 2].
Proof. exists (reads (Many []) None None None). eexists. repeat split. Qed.
Lemma opens_twice : exists c q, consumer_request c = Some q /\ opened q 3 = [1; 1].
Proof. exists (reads (Many [1; 1]) None None None). eexists. repeat split. Qed.
Lemma refused : forall c, consumer_request c = None <->
  exists n o, c_consumer c = Some n /\ n_offsets n = Some o /\ ((exists k, f_start o = Some (Absolute k) /\ k < 0) \/ (f_strategy o <> NoOffsets /\ n_id n = None)).
Proof.
  intros c. unfold consumer_request. cbv zeta. destruct (c_consumer c) as [n|]; [|split; [discriminate | intros (n & o & X & _); discriminate]].
  destruct (n_offsets n) as [o|] eqn:O; [|split; [discriminate | intros (m & o & X & Y & _); injection X as <-; congruence]].
  split.
  - intros H. exists n, o. split; [reflexivity|]. split; [exact O|].
    destruct (f_start o) as [[k| | | |]|]; try (right; destruct (f_strategy o); [discriminate | |]; (split; [discriminate | destruct (n_id n); [discriminate | reflexivity]])).
    destruct (Z.ltb_spec k 0); [left; eauto|]. right. destruct (f_strategy o); [discriminate | |]; (split; [discriminate | destruct (n_id n); [discriminate | reflexivity]]).
  - intros (n' & o' & X & Y & H). injection X as <-. rewrite O in Y. injection Y as <-. destruct H as [(k & E & L) | [S J]].
    + rewrite E. destruct (Z.ltb_spec k 0); [reflexivity | lia].
    + rewrite J. destruct (f_start o) as [[k| | | |]|]; [destruct (k <? 0); [reflexivity|]| | | | |]; (destruct (f_strategy o); [congruence | reflexivity | reflexivity]).
Qed.
Lemma bytes_taken : forall c q n m, consumer_request c = Some q -> c_consumer c = Some n -> n_max_bytes n = Some m -> 0 <= m -> (q_max_bytes q = Some m <-> m < 2 ^ 31).
Proof.
  intros c q n m H C M P. unfold consumer_request in H. cbv zeta in H.
  match type of H with (if ?x then _ else _) = _ => destruct x; [discriminate|] end.
  match type of H with (if ?x then _ else _) = _ => destruct x; [discriminate|] end.
  injection H as <-. cbn [q_max_bytes]. rewrite C, M. cbn [option_map]. split.
  - intros E. injection E as E. pose proof (wrap_s_range 32 m ltac:(lia)) as R. rewrite E in R. unfold in_s in R. lia.
  - intros L. rewrite wrap_s_id; [reflexivity | lia | unfold in_s; lia].
Qed.
Lemma bytes_lost : exists c q, consumer_request c = Some q /\ c_consumer c = Some (mkConsumer All (Some 4294967296) None None) /\ q_max_bytes q = Some 0.
Proof. exists (reads All (Some 4294967296) None None). eexists. repeat split. Qed.
Lemma topic_there : forall c listed later, let r := ensure_topic c listed later in
  (fst r = true -> (forall t v, lookup t listed = Some v -> lookup t later = Some v) -> exists v, lookup (c_topic c) (snd r) = Some v /\ (lookup (c_topic c) later = None -> (c_version c = V2 -> v = Some (c_topic_config c)) /\ (c_version c <> V2 -> v = None))) /\
  (forall t v, lookup t later = Some v -> lookup t (snd r) = Some v) /\
  (forall t, lookup t later = None -> t <> c_topic c -> lookup t (snd r) = None).
Proof.
  intros c listed later. unfold ensure_topic.
  assert (G : forall t v (l : topics) k w, lookup t l = Some v -> lookup t (l ++ [(k, w)]) = Some v).
  { intros t v l k w. induction l as [|[y z] l IH]; cbn [lookup app]; [discriminate|]. destruct (same y t); auto. }
  assert (N : forall t (l : topics) k w, lookup t l = None -> lookup t (l ++ [(k, w)]) = if same k t then Some w else None).
  { intros t l k w. induction l as [|[y z] l IH]; cbn [lookup app]; [reflexivity|]. destruct (same y t); [discriminate | auto]. }
  destruct (lookup (c_topic c) listed) as [v|] eqn:E.
  - cbn [fst snd]. split; [|auto]. intros _ H. exists v. rewrite (H _ _ E). split; [reflexivity | discriminate].
  - destruct (lookup (c_topic c) later) as [v|] eqn:F; cbn [fst snd].
    + split; [discriminate | auto].
    + split; [|split; [auto|]].
      * intros _ _. exists (topic_settings c). rewrite N by exact F. rewrite same_refl. split; [reflexivity|]. intros _. unfold topic_settings. split; [intros ->; reflexivity | destruct (c_version c); congruence].
      * intros t L D. rewrite N by exact L. destruct (same (c_topic c) t) eqn:S; [|reflexivity]. apply same_iff in S. congruence.
Qed.
Lemma topic_race : exists c listed later, (forall t v, lookup t listed = Some v -> lookup t later = Some v) /\ lookup (c_topic c) later = Some None /\ fst (ensure_topic c listed later) = false.
Proof. exists (plain V1 [] None), [], [(b, None)]. split; [discriminate|]. split; reflexivity. Qed.

(** * More on files and packages *)

Lemma trim_start_white : forall w u, forallb white w = true -> trim_start (w ++ u) = trim_start u.
Proof. induction w as [|c w IH]; intros u H; [reflexivity|]. cbn [forallb] in H. apply andb_true_iff in H as [A B]. cbn [app trim_start]. rewrite A. now apply IH. Qed.
Lemma trim_white_end : forall e u, forallb white e = true -> trim (u ++ e) = trim u.
Proof.
  intros e. induction e as [|c e IH] using rev_ind; intros u H; [now rewrite app_nil_r|]. rewrite forallb_app in H. apply andb_true_iff in H as [A B]. cbn [forallb] in B. rewrite andb_true_r in B.
  rewrite app_assoc, trim_white by exact B. now apply IH.
Qed.
Lemma trim_around : forall w u e, forallb white w = true -> forallb white e = true -> trim (w ++ u ++ e) = trim u.
Proof. intros w u e W E. rewrite app_assoc, trim_white_end by exact E. unfold trim. now rewrite trim_start_white. Qed.
Lemma no_white_eq : forall w, forallb white w = true -> ~ In 61 w.
Proof. intros w H X. rewrite forallb_forall in H. apply H in X. discriminate. Qed.
Lemma split_eq_none : forall t acc, ~ In 61 t -> split_eq t acc = None.
Proof. induction t as [|c t IH]; intros acc H; [reflexivity|]. cbn [split_eq]. destruct (Z.eqb_spec c 61); [subst; exfalso; apply H; now left|]. apply IH. intros X. apply H. now right. Qed.
Lemma drop_cr_note : forall t, ~ In 61 t -> ~ In 61 (drop_cr t).
Proof.
  intros t H. unfold drop_cr. destruct (rev t) as [|c r] eqn:E; [exact H|]. destruct (c =? 13); [|exact H]. intros X. apply H. apply in_rev. rewrite E. right. now apply in_rev.
Qed.
Lemma free_read : forall l n, (forall i, In i l -> fine i) -> valid_name n = true -> read_file (free_file l) n = option_map trim (first_entry n l).
Proof.
  intros l n H V. unfold read_file, lines. induction l as [|i l IH]; [reflexivity|]. pose proof (H i (or_introl eq_refl)) as F.
  unfold free_file. cbn [flat_map]. rewrite <- app_assoc. cbn [app]. fold (free_file l). destruct i as [t | w m e v]; cbn [fine written first_entry] in *.
  - destruct F as [F1 F2]. rewrite split_lines_app by exact F2. cbn [app map read_lines]. rewrite split_eq_none by (now apply drop_cr_note). apply IH. intros j J. apply H. now right.
  - destruct F as (VM & W & E & N1 & N2 & N3). destruct (valid_no m VM) as [M1 M2]. rewrite split_lines_app.
    2: { rewrite !in_app_iff. cbn [In]. intros [X | [X | [X | [[X | []] | X]]]]; try discriminate; auto. }
    cbn [app map read_lines]. replace (w ++ m ++ e ++ 61 :: v) with ((w ++ m ++ e) ++ 61 :: v) by (now rewrite <- !app_assoc). rewrite drop_cr_pair, split_eq_app.
    2: { rewrite !in_app_iff. intros [X | [X | X]]; [now apply (no_white_eq w) | auto | now apply (no_white_eq e)]. }
    cbn [app]. rewrite trim_around by assumption. rewrite (trim_bare m), (trim_bare n) by (now apply valid_bare). rewrite trim_drop_cr. unfold same.
    destruct (list_eq_dec Z.eq_dec m n); [reflexivity|]. apply IH. intros j J. apply H. now right.
Qed.
Lemma split_lines_end : forall l acc, split_lines (l ++ [10]) acc = split_lines l acc \/ split_lines (l ++ [10]) acc = split_lines l acc ++ [[]].
Proof.
  induction l as [|c l IH]; intros acc; cbn [app split_lines].
  - rewrite Z.eqb_refl. destruct acc; [right | left]; reflexivity.
  - destruct (c =? 10).
    + destruct (IH []) as [E | E]; rewrite E; [left | right]; reflexivity.
    + apply IH.
Qed.
Lemma read_lines_end : forall ls n, read_lines (ls ++ [[]]) n = read_lines ls n.
Proof. intros ls n. induction ls as [|l ls IH]; [reflexivity|]. cbn [app read_lines]. destruct (split_eq l []) as [[k v]|]; [destruct (same (trim k) (trim n)); [reflexivity | exact IH] | exact IH]. Qed.
Lemma layout : forall l f n, (forall i, In i l -> fine i) -> valid_name n = true -> (f = free_file l \/ f ++ [10] = free_file l) ->
  read_file f n = option_map trim (first_entry n l).
Proof.
  intros l f n H V [-> | E]; [now apply free_read|]. rewrite <- free_read by assumption. rewrite <- E. unfold read_file, lines. destruct (split_lines_end f []) as [X | X]; rewrite X; [reflexivity|]. rewrite map_app. cbn [map]. change (drop_cr []) with (@nil Z). now rewrite read_lines_end.
Qed.
Lemma section : forall name v, custom_part name v = match value_at v [match name with Some n => n | None => [99; 117; 115; 116; 111; 109] end] with Some w => w | None => YMap [] end.
Proof. intros name v. unfold custom_part, yget. destruct v; try reflexivity. cbn [value_at]. unfold custom_name. destruct (lookup _ l); reflexivity. Qed.
Lemma versioned : forall c, declared c = c_secrets c <-> c_version c <> V0 \/ c_secrets c = [].
Proof. intros c. unfold declared. destruct (c_version c); split; intros H; try reflexivity; try (left; discriminate); try (right; now symmetry); destruct H as [H | H]; congruence. Qed.
Lemma colon_split : forall (t u r s : text), ~ In 58 t -> ~ In 58 u -> t ++ 58 :: r = u ++ 58 :: s -> t = u /\ r = s.
Proof.
  induction t as [|c t IH]; intros [|d u] r s T U E; cbn [app] in E.
  - injection E as <-. auto.
  - injection E as X _. exfalso. apply U. left. now symmetry.
  - injection E as X _. exfalso. apply T. now left.
  - injection E as <- E. destruct (IH u r s) as [-> ->]; auto; intros X; [apply T | apply U]; now right.
Qed.
Lemma image_tells : forall c d, ~ In 58 (c_type c) -> ~ In 58 (c_type d) -> image_of c = image_of d -> c_type c = c_type d /\ c_release c = c_release d.
Proof. intros c d C D E. unfold image_of in E. apply app_inv_head in E. apply app_inv_head in E. now apply colon_split. Qed.
