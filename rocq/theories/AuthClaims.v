(** The claims about authorization. *)
From Coq Require Import String.
Open Scope string_scope. Open Scope list_scope. Open Scope Z_scope.
From Verif Require Import Base NameModel PackageModel PackageProofs AuthModel AuthSpec AuthProofs.

(** ** creating *)
Lemma denied_create ro c q s k : proper_ctx c -> creates q = Some k -> ~ allowed c MayCreate k ->
  handle ro c q s = (if match q with CreateTable n _ => has (tables s) n | _ => false end then AlreadyExists else Denied, s).
Proof.
  intros P C N. pose proof (allow_not c k MayCreate P N) as A.
  destruct q; cbn [creates] in C; try discriminate C; injection C as <-; cbn [handle].
  - unfold create_topic. rewrite A. reflexivity.
  - unfold create_group. rewrite A. reflexivity.
  - unfold create_spu. rewrite A. reflexivity.
  - unfold create_module. rewrite A. reflexivity.
  - unfold create_table. rewrite A. destruct (has (tables s) name); reflexivity.
Qed.
Lemma create_denied ro c q s k : proper_ctx c -> creates q = Some k -> k <> TableFormat -> ~ allowed c MayCreate k ->
  handle ro c q s = (Denied, s).
Proof.
  intros P C T N. rewrite (denied_create ro c q s k P C N).
  destruct q; cbn [creates] in C; try discriminate C; try reflexivity. congruence.
Qed.
Lemma has_iff {A} (l : list (bytes * A)) k : has l k = true <-> exists v, In (k, v) l.
Proof.
  unfold has. destruct (at_key l k) as [v|] eqn:E.
  - split; [intros _; exists v; apply at_key_in, E|reflexivity].
  - split; [discriminate|]. intros (v & H). destruct (proj1 (at_key_none l k) E v H).
Qed.
Lemma has_not {A} (l : list (bytes * A)) k : has l k = false <-> ~ exists v, In (k, v) l.
Proof. rewrite <- has_iff. destruct (has l k); split; congruence. Qed.
Lemma table_denied ro c n v s : proper_ctx c -> ~ allowed c MayCreate TableFormat ->
  snd (handle ro c (CreateTable n v) s) = s /\
  (fst (handle ro c (CreateTable n v) s) = Denied <-> ~ named TableFormat s n) /\
  (fst (handle ro c (CreateTable n v) s) = AlreadyExists <-> named TableFormat s n).
Proof.
  intros P N. rewrite (denied_create ro c (CreateTable n v) s TableFormat P eq_refl N). cbn [fst snd named].
  destruct (has (tables s) n) eqn:E.
  - apply has_iff in E. split; [reflexivity|]. split; split; intros H; try discriminate H; try reflexivity; [contradiction|exact E].
  - apply has_not in E. split; [reflexivity|]. split; split; intros H; try discriminate H; try reflexivity; [exact E|contradiction].
Qed.

(** Nothing else is denied. *)
Lemma denied_exactly ro c q s : proper_ctx c -> fst (handle ro c q s) = Denied -> exists k, creates q = Some k /\ ~ allowed c MayCreate k.
Proof.
  intros P H.
  assert (G : forall k (x : reply * sc), (if negb (allow_type c k MayCreate) then (Denied, s) else x) = (Denied, s) \/
              ~ (allow_type c k MayCreate = true) \/ (if negb (allow_type c k MayCreate) then (Denied, s) else x) = x).
  { intros k x. destruct (allow_type c k MayCreate); cbn; auto. }
  destruct q; cbn [handle creates] in *.
  1-5: eexists; split; [reflexivity|]; intros A; apply (allow_iff c _ _ P) in A.
  - unfold create_topic in H. rewrite A in H. cbn [negb] in H.
    destruct (has _ _); [discriminate H|]. destruct (negb (sound s)); [discriminate H|]. destruct dry_run; discriminate H.
  - unfold create_group in H. rewrite A in H. discriminate H.
  - unfold create_spu in H. rewrite A in H. cbn [negb] in H. destruct (_ || _); [discriminate H|]. destruct dry_run; discriminate H.
  - unfold create_module in H. rewrite A in H. cbn [negb] in H. destruct (create _ _ _) as [[] ?]; discriminate H.
  - unfold create_table in H. rewrite A in H. cbn [negb] in H. destruct (has _ _); discriminate H.
  - unfold create_mirror in H. destruct ro; [discriminate H|]. destruct (at_key _ _) as [[]|]; discriminate H.
  - unfold delete_topic in H. destruct c; cbn [allow_instance negb] in H; (destruct (at_key _ _) as [t|]; [|discriminate H];
      destruct (t_replicas t); try discriminate H; destruct (_ && _); discriminate H).
  - unfold delete_spu, unregister_spu in H. destruct c; cbn [allow_instance negb] in H;
      (destruct (at_key _ _) as [t|]; [|discriminate H]; destruct (s_custom t); discriminate H).
  - unfold delete_spu_id, unregister_spu in H. destruct c; cbn [allow_instance negb] in H;
      (destruct (find _ _) as [t|]; [|discriminate H]; destruct (s_custom (snd t)); discriminate H).
  - unfold delete_group in H. destruct c; cbn [allow_instance negb] in H; destruct (has _ _); discriminate H.
  - unfold delete_module in H. destruct c; cbn [allow_instance negb] in H; destruct (delete _ _) as [[] ?]; discriminate H.
  - unfold delete_table in H. destruct c; cbn [allow_instance negb] in H; destruct (has _ _); discriminate H.
  - unfold delete_mirror in H. destruct ro; [discriminate H|]. destruct (has _ _); discriminate H.
  - unfold add_partitions in H. destruct c; cbn [allow_instance negb] in H; (destruct (at_key _ _) as [t|]; [|discriminate H];
      destruct (t_system t); [discriminate H|]; destruct (t_replicas t); discriminate H).
  - unfold add_remote in H. destruct c; cbn [allow_instance negb] in H; (destruct (at_key (topics s) _) as [t|]; [|discriminate H];
      destruct (at_key _ _) as [[]|]; try discriminate H; destruct (t_replicas t); try discriminate H;
      destruct (existsb _ _); [discriminate H|]; destruct (t_system t); discriminate H).
  - cbn [fst] in H. unfold list_objects in H.
    destruct k; try discriminate H; try (destruct (negb _); discriminate H).
    destruct (negb _); [discriminate H|]. destruct (list_modules _ _); discriminate H.
  - cbn [fst] in H. destruct k; discriminate H.
Qed.

Lemma in_put {A} (l : list (bytes * A)) k v n : (exists w, In (n, w) (put l k v)) <-> (exists w, In (n, w) l) \/ n = k.
Proof.
  rewrite <- !has_iff. unfold has. induction l as [|[x w] l IH]; cbn [put at_key].
  - destruct (text_eqb k n) eqn:E; [apply text_eqb_iff in E as ->; intuition|].
    split; [discriminate|]. intros [H|H]; [discriminate H|]. subst n.
    rewrite (proj2 (text_eqb_iff k k) eq_refl) in E. discriminate E.
  - destruct (text_eqb x k) eqn:E; cbn [at_key].
    + apply text_eqb_iff in E as ->. destruct (text_eqb k n) eqn:F; [apply text_eqb_iff in F; intuition|].
      split; [auto|]. intros [H|H]; [exact H|]. subst n. rewrite (proj2 (text_eqb_iff k k) eq_refl) in F. discriminate F.
    + destruct (text_eqb x n); [intuition|exact IH].
Qed.
Lemma put_new {A} (l : list (bytes * A)) k v : has l k = false -> put l k v = l ++ [(k, v)].
Proof.
  unfold has. induction l as [|[x w] l IH]; cbn; [reflexivity|]. destruct (text_eqb x k) eqn:E; [discriminate|].
  intros H. rewrite IH; [reflexivity|exact H].
Qed.
Lemma create_made ro c q s k n : proper_ctx c -> creates q = Some k -> allowed c MayCreate k -> fresh q s n ->
  fst (handle ro c q s) = Accepted /\ (forall x, named k (snd (handle ro c q s)) x <-> named k s x \/ x = n) /\
  forall k' x, k' <> k -> (k = CustomSpu -> k' <> Spu) -> (named k' (snd (handle ro c q s)) x <-> named k' s x).
Proof.
  intros P C A F. pose proof (proj2 (allow_iff c k MayCreate P) A) as B.
  destruct q; cbn [creates] in C; try discriminate C; injection C as <-; cbn [handle fresh] in *; try contradiction.
  - destruct F as (-> & -> & S & N). unfold create_topic. rewrite B. cbn [negb]. cbn [named] in N. apply has_not in N.
    rewrite N, S. cbn [negb fst snd]. split; [reflexivity|]. split; [intros x; apply in_put|].
    intros [] x H _; try reflexivity. congruence.
  - subst n. unfold create_group. rewrite B. cbn [negb fst snd]. split; [reflexivity|]. split; [intros x; apply in_put|].
    intros [] x H _; try reflexivity. congruence.
  - destruct F as (-> & -> & N & U). unfold create_spu. rewrite B. cbn [negb]. cbn [named] in N. apply has_not in N.
    rewrite N. destruct (existsb _ _) eqn:X.
    { apply existsb_exists in X as ([m u] & I0 & X). cbn [snd] in X. destruct (U m u I0). lia. }
    cbn [orb fst snd]. split; [reflexivity|]. split.
    + intros x. cbn [named spus set_spus]. rewrite (put_new _ _ _ N). split.
      * intros (u & I0 & Cu). apply in_app_iff in I0 as [I0|[I0|[]]]; [left; eauto|]. injection I0 as -> _. auto.
      * intros [(u & I0 & Cu)| ->].
        -- exists u. rewrite in_app_iff. auto.
        -- exists (mkSpu id true). rewrite in_app_iff. cbn. auto.
    + intros [] x H Q; try reflexivity; [destruct (Q eq_refl); reflexivity|congruence].
  - destruct F as (-> & N). unfold create_table. rewrite B. cbn [negb]. cbn [named] in N. apply has_not in N.
    rewrite N. cbn [fst snd]. split; [reflexivity|]. split; [intros x; apply in_put|].
    intros [] x H _; try reflexivity. congruence.
Qed.

(** ** listing *)
Lemma list_denied ro c k f sys s : proper_ctx c -> listable k -> ~ allowed c MayRead k ->
  handle ro c (List k f sys) s = (Listing [], s).
Proof.
  intros P (L1 & L2 & L3) N. pose proof (allow_not c k MayRead P N) as A. cbn [handle].
  destruct k; cbn [list_objects]; try rewrite A; try reflexivity; congruence.
Qed.
Lemma in_filter_sel f l n : In n (filter (selected f) l) <-> In n l /\ wanted f n.
Proof. rewrite filter_In, selected_iff. tauto. Qed.
Lemma list_topics ro c f sys s : proper_ctx c -> allowed c MayRead Topic ->
  shows (fst (handle ro c (List Topic f sys) s)) (fun n => (exists t, In (n, t) (topics s) /\ t_system t = sys) /\ wanted f n).
Proof.
  intros P A. apply (allow_iff c Topic MayRead P) in A. cbn [handle fst list_objects]. rewrite A. cbn [negb].
  eexists. split; [reflexivity|]. intros n. rewrite in_filter_sel.
  rewrite (in_names_filter (fun t => Bool.eqb (t_system t) sys)).
  split; intros ((t & I0 & E) & W); (split; [|exact W]); exists t; (split; [exact I0|]); apply eqb_true_iff; exact E.
Qed.
Lemma list_others ro c k f sys s : proper_ctx c -> In k [Spu; CustomSpu; SpuGroup; TableFormat] -> allowed c MayRead k ->
  shows (fst (handle ro c (List k f sys) s)) (fun n => named k s n /\ wanted f n).
Proof.
  intros P I0 A. apply (allow_iff c k MayRead P) in A. cbn [handle fst].
  cbn [In] in I0. destruct I0 as [<-|[<-|[<-|[<-|[]]]]]; cbn [list_objects]; rewrite A; cbn [negb];
    eexists; (split; [reflexivity|]); intros n; rewrite in_filter_sel; cbn [named].
  - rewrite in_names. tauto.
  - rewrite (in_names_filter s_custom). tauto.
  - rewrite in_names. tauto.
  - rewrite in_names. tauto.
Qed.
Lemma list_partitions ro c f sys s : proper_ctx c -> allowed c MayRead Partition ->
  shows (fst (handle ro c (List Partition f sys) s)) (fun n => In (n, sys) (partitions s)).
Proof.
  intros P A. apply (allow_iff c Partition MayRead P) in A. cbn [handle fst list_objects]. rewrite A. cbn [negb].
  eexists. split; [reflexivity|]. intros n. rewrite (in_names_filter (fun t => Bool.eqb t sys)). split.
  - intros (t & I0 & E). apply Bool.eqb_prop in E. rewrite <- E. exact I0.
  - intros I0. exists sys. split; [exact I0|apply eqb_true_iff; reflexivity].
Qed.
Lemma list_module_names ro c f sys s l : proper_ctx c -> allowed c MayRead SmartModule -> list_modules f (modules s) = Some l ->
  shows (fst (handle ro c (List SmartModule f sys) s)) (fun n => exists m, In (n, m) l).
Proof.
  intros P A H. apply (allow_iff c SmartModule MayRead P) in A. cbn [handle fst list_objects]. rewrite A, H. cbn [negb].
  eexists. split; [reflexivity|]. apply in_names.
Qed.

(** ** sessions *)
Lemma session_blind ro c qs : proper_ctx c -> Forall (without_permission c) qs ->
  exists l, forall s, session ro c qs s = (l, s).
Proof.
  intros P. induction 1 as [|q qs (k & Q) F (l & IH)]; [exists []; reflexivity|].
  destruct Q as [(C & T & N)|(C & L & N)].
  - exists (Denied :: l). intros s. cbn [session]. rewrite (create_denied ro c q s k P C T N), IH. reflexivity.
  - exists (Listing [] :: l). intros s. destruct q; cbn [lists] in C; try discriminate C.
    assert (k0 = k) as -> by (destruct k0; congruence).
    cbn [session]. rewrite (list_denied ro c k filters system s P L N), IH. reflexivity.
Qed.

(** ** permissions for single objects *)
Lemma handle_general ro p roles q s : handle ro (Basic p roles) q s = handle ro (Basic (general p) roles) q s.
Proof.
  assert (E : forall k a, allow_type (Basic p roles) k a = allow_type (Basic (general p) roles) k a).
  { intros k a. cbn [allow_type]. rewrite evaluate_general. reflexivity. }
  destruct q; cbn [handle]; try reflexivity.
  - unfold create_topic. rewrite E. reflexivity.
  - unfold create_group. rewrite E. reflexivity.
  - unfold create_spu. rewrite E. reflexivity.
  - unfold create_module. rewrite E. reflexivity.
  - unfold create_table. rewrite E. reflexivity.
  - f_equal. unfold list_objects. rewrite !E. reflexivity.
Qed.

(** ** what is not asked for *)
Lemma unchecked ro c c' q s : creates q = None -> lists q = None -> handle ro c q s = handle ro c' q s.
Proof.
  intros C L. destruct q; cbn [creates lists] in *; try discriminate C; cbn [handle]; try reflexivity.
  - destruct c, c'; reflexivity.
  - destruct c, c'; reflexivity.
  - destruct c, c'; reflexivity.
  - destruct c, c'; reflexivity.
  - destruct c, c'; reflexivity.
  - destruct c, c'; reflexivity.
  - destruct c, c'; reflexivity.
  - destruct c, c'; reflexivity.
  - destruct k; try discriminate L. reflexivity.
Qed.
Lemma delete_any ro c s n t : In (n, t) (topics s) -> NoDup (map fst (topics s)) -> t_replicas t <> FromHome ->
  fst (handle ro c (DeleteTopic n true) s) = Accepted /\ topic_gone n s (snd (handle ro c (DeleteTopic n true) s)).
Proof.
  intros I0 D R. cbn [handle]. unfold delete_topic.
  replace (allow_instance c Topic MayDelete n) with true by (destruct c; reflexivity). cbn [negb].
  rewrite (proj2 (at_key_iff (topics s) n t D) I0).
  assert (G : topic_gone n s (set_topics s (drop (topics s) n))).
  { unfold topic_gone. cbn [set_topics topics spus groups partitions modules tables mirrors].
    refine (conj _ (conj _ (conj eq_refl (conj eq_refl (conj eq_refl (conj eq_refl (conj eq_refl eq_refl))))))).
    - intros t' H. apply in_drop in H as (_ & H). congruence.
    - intros m t' N. rewrite in_drop. tauto. }
  destruct (t_replicas t); try contradiction; cbn [negb andb fst snd]; auto.
Qed.
Lemma watch_all ro c k s : In k [Topic; Spu; SpuGroup; Partition; SmartModule; TableFormat] ->
  watches (fst (handle ro c (Watch k) s)) (named k s).
Proof.
  intros I0. cbn [handle fst]. cbn [In] in I0. destruct I0 as [<-|[<-|[<-|[<-|[<-|[<-|[]]]]]]]; cbn [watch_objects];
    eexists; (split; [reflexivity|]); intros n; rewrite in_names; reflexivity.
Qed.
Lemma read_only_no_create first c q s k : connect None true first = Some c -> creates q = Some k -> k <> CustomSpu ->
  snd (handle true c q s) = s.
Proof.
  intros [= <-] C N. assert (A : ~ allowed ReadOnly MayCreate k) by (intros [H|H]; congruence).
  rewrite (denied_create true ReadOnly q s k I C A). reflexivity.
Qed.
Lemma read_only_mirrors c n m s : snd (handle true c (CreateMirror n m) s) = s /\ snd (handle true c (DeleteMirror n) s) = s.
Proof. split; reflexivity. Qed.

(** ** connections *)
Lemma proxy_scopes b p ro n c : NoDup (map fst b) -> connect (Some p) ro (proxied b (Some n)) = Some c -> proper p ->
  forall a k, allowed c a k <-> exists l, In (n, l) b /\ grants p l a k.
Proof.
  intros D [= <-] P a k. cbn [allowed]. destruct (at_key b n) as [l|] eqn:E.
  - apply (at_key_iff b n l D) in E. split; [intros G; exists l; auto|].
    intros (l' & I0 & G). apply (at_key_iff b n _ D) in E, I0. congruence.
  - split.
    + intros (role & r & l & x & [] & _).
    + intros (l & I0 & _). destruct (proj1 (at_key_none b n) E l I0).
Qed.
Lemma proxy_closed b p ro : connect (Some p) ro (proxied b None) = None.
Proof. reflexivity. Qed.
Lemma no_policy first c a k : connect None false first = Some c -> allowed c a k.
Proof. intros [= <-]. exact I. Qed.

(** ** the default policy *)
Lemma default_proper : proper default_policy.
Proof.
  split.
  - cbn. constructor; [tauto|constructor].
  - intros role r [[= _ <-]|[]]. cbn. repeat constructor; cbn; intuition discriminate.
Qed.
Lemma default_grants roles a k : grants default_policy roles a k <->
  In (lit "Root") roles /\ In k [Spu; CustomSpu; SpuGroup; Topic; Partition; TableFormat].
Proof.
  rewrite <- (evaluate_grants default_policy a k roles default_proper). unfold evaluate. rewrite existsb_exists. split.
  - intros (role & R & H). unfold default_policy in H. cbn [at_key] in H.
    destruct (text_eqb (lit "Root") role) eqn:E; [|discriminate H]. apply text_eqb_iff in E. subst role.
    split; [exact R|]. destruct k; cbn in *; auto 10; try discriminate H.
  - intros (R & K). exists (lit "Root"). split; [exact R|]. unfold default_policy. cbn [at_key].
    rewrite (proj2 (text_eqb_iff _ _) eq_refl). cbn [In] in K.
    destruct K as [<-|[<-|[<-|[<-|[<-|[<-|[]]]]]]]; cbn; rewrite ?orb_true_r; reflexivity.
Qed.

(** ** witnesses *)
(** a policy: one role may create and read topics, another read SmartModules;
    the third has a permission for one topic *)
Definition a_policy : policy :=
  [(lit "writer", [(Topic, [mkPerm MayCreate None; mkPerm MayRead None])]);
   (lit "reader", [(SmartModule, [mkPerm MayRead None]); (TableFormat, [mkPerm MayAll None])]);
   (lit "guest", [(Topic, [mkPerm MayRead (Some (lit "orders"))])])].
Lemma a_policy_proper : proper a_policy.
Proof.
  split.
  - cbn. repeat constructor; cbn; intuition discriminate.
  - intros role r [[= _ <-]|[[= _ <-]|[[= _ <-]|[]]]]; cbn; repeat constructor; cbn; intuition discriminate.
Qed.
Definition a_state : sc :=
  mkSc [(lit "orders", mkTopic false (Computed 2)); (lit "__offsets", mkTopic true (Computed 1))]
    [(lit "spu-1", mkSpu 1 false); (lit "custom-2", mkSpu 2 true)] [(lit "main", 1)]
    [(lit "orders-0", false); (lit "orders-1", false); (lit "__offsets-0", true)]
    [(lit "filter", mkM None 7)] [(lit "rows", 1)] [(lit "edge", MRemote)].

(** a client without any role has no permissions *)
Definition nobody : ctx := Basic a_policy [].
Lemma nobody_proper : proper_ctx nobody. Proof. exact a_policy_proper. Qed.
Lemma nobody_allowed a k : ~ allowed nobody a k.
Proof. intros (role & r & l & x & [] & _). Qed.
Definition writer : ctx := Basic a_policy [lit "writer"].
Lemma writer_allowed : allowed writer MayCreate Topic /\ allowed writer MayRead Topic /\ ~ allowed writer MayRead SmartModule /\
  ~ allowed writer MayCreate TableFormat.
Proof.
  unfold writer, allowed. rewrite <- !(evaluate_grants a_policy _ _ _ a_policy_proper). vm_compute.
  refine (conj eq_refl (conj eq_refl (conj _ _))); discriminate.
Qed.
Definition two_roles : ctx := Basic a_policy [lit "guest"; lit "reader"; lit "writer"].
Lemma two_roles_allowed : allowed two_roles MayCreate Topic /\ allowed two_roles MayRead SmartModule.
Proof. unfold two_roles, allowed. rewrite <- !(evaluate_grants a_policy _ _ _ a_policy_proper). vm_compute. auto. Qed.

Definition a_session : list req :=
  [CreateTopic (lit "t") (mkTopic false (Computed 1)) false (fun _ => true); List Topic [] false;
   CreateModule (lit "m") (mkM None 1); List SmartModule [lit "filter"] false].
Lemma a_session_without : Forall (without_permission nobody) a_session /\
  session false nobody a_session a_state = ([Denied; Listing []; Denied; Listing []], a_state).
Proof.
  split; [|vm_compute; reflexivity]. repeat constructor; unfold without_permission.
  - exists Topic. left. repeat split; [discriminate|apply nobody_allowed].
  - exists Topic. right. repeat split; try discriminate. apply nobody_allowed.
  - exists SmartModule. left. repeat split; [discriminate|apply nobody_allowed].
  - exists SmartModule. right. repeat split; try discriminate. apply nobody_allowed.
Qed.
Lemma a_topic_fresh : fresh (CreateTopic (lit "t") (mkTopic false (Computed 1)) false (fun _ => true)) a_state (lit "t").
Proof.
  refine (conj eq_refl (conj eq_refl (conj eq_refl _))). intros (t & [H|[H|[]]]); discriminate H.
Qed.

(** A permission for one object does not let a client see it. *)
Lemma guest_sees_nothing : exists p roles name s, proper p /\ grants_on p roles MayRead Topic name /\ named Topic s name /\
  forall ro f sys, handle ro (Basic p roles) (List Topic f sys) s = (Listing [], s).
Proof.
  exists a_policy, [lit "guest"], (lit "orders"), a_state. refine (conj a_policy_proper (conj _ (conj _ _))).
  - exists (lit "guest"), [(Topic, [mkPerm MayRead (Some (lit "orders"))])], [mkPerm MayRead (Some (lit "orders"))],
      (mkPerm MayRead (Some (lit "orders"))). cbn. auto 10.
  - exists (mkTopic false (Computed 2)). cbn. auto.
  - intros ro f sys. apply list_denied; [exact a_policy_proper|split; [discriminate|split; discriminate]|].
    cbn [allowed]. rewrite <- (evaluate_grants a_policy _ _ _ a_policy_proper). vm_compute. discriminate.
Qed.
(** Asked for one object, the policy takes parts of the name for the name. *)
Lemma part_of_name : exists p roles a k name, proper p /\ evaluate p a k (Some name) roles = true /\ ~ grants_on p roles a k name.
Proof.
  exists a_policy, [lit "guest"], MayRead, Topic, (lit "order"). refine (conj a_policy_proper (conj _ _)); [vm_compute; reflexivity|].
  intros (role & r & l & x & R & K & K2 & X & O & _). cbn in R. destruct R as [<-|[]].
  cbn in K. destruct K as [K|[K|[K|[]]]]; [discriminate K|discriminate K|]. injection K as <-.
  cbn in K2. destruct K2 as [K2|[]]. injection K2 as <-. cbn in X. destruct X as [<-|[]]. cbn in O.
  destruct O as [O|O]; [discriminate O|]. injection O as O. discriminate O.
Qed.
Lemma root_no_modules : exists q, creates q = Some SmartModule /\
  forall ro s, handle ro (Basic default_policy [lit "Root"]) q s = (Denied, s).
Proof.
  exists (CreateModule (lit "m") (mkM None 1)). split; [reflexivity|]. intros ro s.
  apply (create_denied ro (Basic default_policy [lit "Root"]) (CreateModule (lit "m") (mkM None 1)) s SmartModule default_proper eq_refl); [discriminate|].
  cbn [allowed]. rewrite default_grants. cbn. intuition discriminate.
Qed.
Lemma file_cut : exists x y, parse_perm (print_perm x) = Some y /\ x <> y.
Proof.
  exists (mkPerm MayRead (Some (lit "eu:orders"))), (mkPerm MayRead (Some (lit "eu"))).
  split; [vm_compute; reflexivity|]. intros H. injection H as H. discriminate H.
Qed.
Lemma file_word : ~ In 58 (lit "Write") /\ forall x, lit "Write" <> action_text x.
Proof. split; [cbn; lia|]. intros []; vm_compute; discriminate. Qed.
Lemma partition_filter : exists c f s n, proper_ctx c /\ allowed c MayRead Partition /\ ~ wanted f n /\
  exists l, fst (handle false c (List Partition f false) s) = Listing l /\ In n l.
Proof.
  exists Root, [lit "payments"], a_state, (lit "orders-0"). refine (conj I (conj I (conj _ _))).
  - rewrite <- selected_iff. vm_compute. discriminate.
  - eexists. split; [vm_compute; reflexivity|]. left. reflexivity.
Qed.

Lemma deleted_by_nobody : exists c s n, proper_ctx c /\ (forall a k, ~ allowed c a k) /\ named Topic s n /\
  fst (handle false c (DeleteTopic n false) s) = Accepted /\ topic_gone n s (snd (handle false c (DeleteTopic n false) s)).
Proof.
  exists nobody, a_state, (lit "orders"). refine (conj nobody_proper (conj nobody_allowed (conj _ (conj _ _)))).
  - exists (mkTopic false (Computed 2)). cbn. auto.
  - vm_compute. reflexivity.
  - assert (E : snd (handle false nobody (DeleteTopic (lit "orders") false) a_state)
      = set_topics a_state (drop (topics a_state) (lit "orders"))) by (vm_compute; reflexivity).
    rewrite E. unfold topic_gone. cbn [set_topics topics spus groups partitions modules tables mirrors].
    refine (conj _ (conj _ (conj eq_refl (conj eq_refl (conj eq_refl (conj eq_refl (conj eq_refl eq_refl))))))).
    + intros t' H. apply in_drop in H as (_ & H). congruence.
    + intros m t' N. rewrite in_drop. tauto.
Qed.
Lemma changed_by_nobody : exists c s n, proper_ctx c /\ (forall a k, ~ allowed c a k) /\ In (n, mkTopic false (Computed 2)) (topics s) /\
  exists s', handle false c (AddPartitions n 3) s = (Accepted, s') /\ In (n, mkTopic false (Computed 5)) (topics s').
Proof.
  exists nobody, a_state, (lit "orders"). refine (conj nobody_proper (conj nobody_allowed (conj _ _))); [cbn; auto|].
  eexists. split; [vm_compute; reflexivity|]. left. reflexivity.
Qed.
Lemma mirrors_by_nobody : exists c s n m, proper_ctx c /\ (forall a k, ~ allowed c a k) /\ named Mirror s n /\ ~ named Mirror s m /\
  named Mirror (snd (handle false c (CreateMirror m MHome) s)) m /\ ~ named Mirror (snd (handle false c (DeleteMirror n) s)) n /\
  shows (fst (handle false c (List Mirror [] false) s)) (named Mirror s).
Proof.
  exists nobody, a_state, (lit "edge"), (lit "mine").
  refine (conj nobody_proper (conj nobody_allowed (conj _ (conj _ (conj _ (conj _ _)))))).
  - exists MRemote. cbn. auto.
  - intros (v & [H|[]]). discriminate H.
  - exists MHome. vm_compute. auto.
  - intros (v & H). vm_compute in H. exact H.
  - eexists. split; [reflexivity|]. apply in_names.
Qed.
Lemma table_exists : exists c s s' q, proper_ctx c /\ (forall a k, ~ allowed c a k) /\ creates q = Some TableFormat /\
  s' = set_tables s [] /\ fst (handle false c q s) <> fst (handle false c q s').
Proof.
  exists nobody, a_state, (set_tables a_state []), (CreateTable (lit "rows") 0).
  refine (conj nobody_proper (conj nobody_allowed (conj eq_refl (conj eq_refl _)))). vm_compute. discriminate.
Qed.
Lemma deleted_read_only : exists c s n, connect None true None = Some c /\ ~ allowed c MayDelete Topic /\ named Topic s n /\
  fst (handle true c (DeleteTopic n false) s) = Accepted /\ ~ named Topic (snd (handle true c (DeleteTopic n false) s)) n.
Proof.
  exists ReadOnly, a_state, (lit "orders"). refine (conj eq_refl (conj _ (conj _ (conj _ _)))).
  - intros [H|H]; discriminate H.
  - exists (mkTopic false (Computed 2)). cbn. auto.
  - vm_compute. reflexivity.
  - intros (v & H). vm_compute in H. destruct H as [H|[]]. discriminate H.
Qed.
(** Whoever connects without the proxy names its own roles. *)
Lemma claimed b n : (forall l, In (n, l) b -> l = []) -> NoDup (map fst b) -> exists p ro c c', proper p /\
  connect (Some p) ro (proxied b (Some n)) = Some c /\ (forall a k, ~ allowed c a k) /\
  connect (Some p) ro (Some [lit "Root"]) = Some c' /\ allowed c' MayCreate Topic.
Proof.
  intros E D. exists default_policy, false. eexists. exists (Basic default_policy [lit "Root"]).
  refine (conj default_proper (conj eq_refl (conj _ (conj eq_refl _)))).
  - intros a k H. apply (proxy_scopes b default_policy false n _ D eq_refl default_proper) in H as (l & I0 & G).
    rewrite (E l I0) in G. destruct G as (? & ? & ? & ? & [] & _).
  - cbn [allowed]. apply default_grants. cbn. auto 10.
Qed.

Lemma a_topic_list : fst (handle false writer (List Topic [lit "rde"] false) a_state) = Listing [lit "orders"].
Proof. vm_compute. reflexivity. Qed.
Lemma a_module_list : list_modules [lit "filter"] (modules a_state) = Some [(lit "filter", mkM None 7)].
Proof. vm_compute. reflexivity. Qed.
Lemma a_proxied : connect (Some a_policy) false (proxied [(lit "alice", [lit "writer"])] (Some (lit "alice"))) = Some writer.
Proof. vm_compute. reflexivity. Qed.
Lemma writer_modules : proper_ctx writer /\ listable SmartModule /\ ~ allowed writer MayRead SmartModule.
Proof.
  split; [exact a_policy_proper|]. split; [split; [discriminate|split; discriminate]|].
  exact (proj1 (proj2 (proj2 writer_allowed))).
Qed.

(** ** what the requests do *)
Lemma drop_names {A} (l : list (bytes * A)) k x : (exists v, In (x, v) (drop l k)) <-> (exists v, In (x, v) l) /\ x <> k.
Proof.
  split.
  - intros (v & H). apply in_drop in H as (H & N). split; [exists v; exact H|exact N].
  - intros ((v & H) & N). exists v. apply in_drop. auto.
Qed.
Lemma nodup_filter {A B} (g : A -> B) (f : A -> bool) l : NoDup (map g l) -> NoDup (map g (filter f l)).
Proof.
  induction l as [|x l IH]; cbn; [auto|]. intros N. inversion N as [|? ? N1 N2]; subst.
  destruct (f x); [|auto]. cbn. constructor; [|auto]. intros H. destruct N1. apply in_map_iff in H as (y & E & H).
  apply filter_In in H as (H & _). rewrite <- E. apply in_map, H.
Qed.
Lemma nodup_put {A} (l : list (bytes * A)) k v : NoDup (map fst l) -> NoDup (map fst (put l k v)).
Proof.
  induction l as [|[x w] l IH]; cbn [put map fst]; intros N.
  - constructor; [tauto|constructor].
  - inversion N as [|? ? N1 N2]; subst. destruct (text_eqb x k) eqn:E; cbn [map fst].
    + apply text_eqb_iff in E as ->. constructor; assumption.
    + constructor; [|auto]. intros H. apply in_map_iff in H as ([y u] & F & H). cbn in F. subst y.
      assert (G : exists w, In (x, w) (put l k v)) by eauto. apply in_put in G as [(w' & G)|G].
      * apply N1. apply (in_map fst) in G. exact G.
      * subst k. rewrite (proj2 (text_eqb_iff x x) eq_refl) in E. discriminate E.
Qed.
Lemma put_in {A} (l : list (bytes * A)) k v n w : NoDup (map fst l) -> (In (n, w) (put l k v) <-> (n = k /\ w = v) \/ (n <> k /\ In (n, w) l)).
Proof.
  induction l as [|[x u] l IH]; cbn [put map fst]; intros N.
  - cbn. split; [intros [[= -> ->]|[]]; auto|]. intros [(-> & ->)|(_ & [])]. auto.
  - inversion N as [|? ? N1 N2]; subst. specialize (IH N2).
    assert (NI : forall y, In (x, y) l -> False) by (intros y H; apply N1; apply (in_map fst) in H; exact H).
    destruct (text_eqb x k) eqn:E.
    + apply text_eqb_iff in E as ->. cbn [In]. split.
      * intros [H|H]; [injection H as -> ->; auto|]. right. split; [intros ->; exact (NI w H)|auto].
      * intros [(-> & ->)|(H & [F|F])]; [auto|congruence|auto].
    + assert (xk : x <> k) by (intros ->; rewrite (proj2 (text_eqb_iff k k) eq_refl) in E; discriminate E).
      cbn [In]. rewrite IH. split.
      * intros [H|[H|H]]; [injection H as -> ->; auto|auto|tauto].
      * intros [H|(H & [F|F])]; auto.
Qed.

Lemma allow_inst c k a n : allow_instance c k a n = true. Proof. destruct c; reflexivity. Qed.
Lemma find_id (l : list (bytes * spu)) id n u : NoDup (map (fun e => s_id (snd e)) l) -> In (n, u) l -> s_id u = id ->
  find (fun e => s_id (snd e) =? id) l = Some (n, u).
Proof.
  induction l as [|[x w] l IH]; cbn; [intros _ []|]. intros N [H|H] E; inversion N as [|? ? N1 N2]; subst.
  - injection H as -> ->. rewrite Z.eqb_refl. reflexivity.
  - destruct (Z.eqb_spec (s_id w) (s_id u)) as [F|F]; [|auto]. destruct N1. rewrite F.
    apply in_map_iff. exists (n, u). auto.
Qed.

Lemma spu_unregister s n u : NoDup (map fst (spus s)) -> In (n, u) (spus s) ->
  (fst (unregister_spu n u s) = Accepted <-> exists u', In (n, u') (spus s) /\ s_custom u' = true) /\
  (fst (unregister_spu n u s) <> Accepted -> snd (unregister_spu n u s) = s) /\
  (fst (unregister_spu n u s) = Accepted -> only_gone Spu n s (snd (unregister_spu n u s))).
Proof.
  intros N H. unfold unregister_spu. destruct (s_custom u) eqn:C; cbn [fst snd].
  - split; [split; [intros _; eauto|reflexivity]|]. split; [congruence|]. intros _. split.
    + intros x. apply drop_names.
    + intros [] x K K2; try reflexivity; [congruence|destruct (K2 eq_refl eq_refl)].
  - split; [split; [discriminate|]|split; [reflexivity|discriminate]].
    intros (u' & H' & C'). apply (at_key_iff _ _ _ N) in H, H'. congruence.
Qed.
Lemma deleted ro c q s k n : sound_stores s -> target q s k n ->
  (fst (handle ro c q s) = Accepted <-> deletable ro q s n) /\
  (fst (handle ro c q s) <> Accepted -> snd (handle ro c q s) = s) /\
  (fst (handle ro c q s) = Accepted -> only_gone k n s (snd (handle ro c q s))).
Proof.
  intros (W1 & W2 & W3 & W4 & W5 & W6) T. destruct q; cbn [target] in T; try contradiction; cbn [handle deletable].
  - destruct T as (-> & ->). unfold delete_topic. rewrite allow_inst. cbn [negb]. destruct (at_key (topics s) n) as [t|] eqn:K.
    + apply (at_key_iff _ _ _ W1) in K as H.
      assert (U : forall t', In (n, t') (topics s) -> t' = t) by (intros t' H'; apply (at_key_iff _ _ _ W1) in H'; congruence).
      assert (G : only_gone Topic n s (set_topics s (drop (topics s) n))).
      { split; [intros x; apply drop_names|]. intros [] x K1 _; try reflexivity. congruence. }
      assert (NH : (fst (if negb force && t_system t then (Rejected, s) else (Accepted, set_topics s (drop (topics s) n))) = Accepted
                   <-> (t_system t = true -> force = true))).
      { destruct force, (t_system t); cbn; split; auto; try discriminate. intros F. specialize (F eq_refl). discriminate F. }
      destruct (t_replicas t) eqn:R.
      3:{ cbn [fst snd]. split; [split; [discriminate|]|split; [reflexivity|discriminate]].
          intros (t' & H' & R' & _). rewrite (U t' H') in R'. congruence. }
      all: (split; [rewrite NH; split; [intros F; exists t; rewrite R; repeat split; [exact H|discriminate|exact F]
                                      |intros (t' & H' & _ & F); rewrite (U t' H') in F; exact F]|]);
           destruct (_ && _); cbn [fst snd]; (split; [congruence|]); intros F; try discriminate F; exact G.
    + cbn [fst snd]. split; [split; [discriminate|]|split; [reflexivity|discriminate]].
      intros (t & H & _). destruct (proj1 (at_key_none _ _) K t H).
  - destruct T as (-> & ->). unfold delete_spu. rewrite allow_inst. cbn [negb]. destruct (at_key (spus s) n) as [u|] eqn:K.
    + apply (at_key_iff _ _ _ W2) in K. apply spu_unregister; assumption.
    + cbn [fst snd]. split; [split; [discriminate|]|split; [reflexivity|discriminate]].
      intros (t & H & _). destruct (proj1 (at_key_none _ _) K t H).
  - destruct T as (-> & u & H & E). unfold delete_spu_id. rewrite allow_inst. cbn [negb].
    rewrite (find_id (spus s) id n u W3 H E). apply spu_unregister; assumption.
  - destruct T as (-> & ->). unfold delete_group. rewrite allow_inst. cbn [negb]. destruct (has (groups s) n) eqn:K; cbn [fst snd].
    + apply has_iff in K. split; [split; [intros _; exact K|reflexivity]|]. split; [congruence|]. intros _.
      split; [intros x; apply drop_names|]. intros [] x K1 _; try reflexivity. congruence.
    + apply has_not in K. split; [split; [discriminate|intros F; destruct (K F)]|split; [reflexivity|discriminate]].
  - destruct T as (-> & ->). unfold delete_table. rewrite allow_inst. cbn [negb]. destruct (has (tables s) n) eqn:K; cbn [fst snd].
    + apply has_iff in K. split; [split; [intros _; exact K|reflexivity]|]. split; [congruence|]. intros _.
      split; [intros x; apply drop_names|]. intros [] x K1 _; try reflexivity. congruence.
    + apply has_not in K. split; [split; [discriminate|intros F; destruct (K F)]|split; [reflexivity|discriminate]].
  - destruct T as (-> & ->). unfold delete_mirror. destruct ro; cbn [fst snd].
    + split; [split; [discriminate|intros (_ & F); discriminate F]|split; [reflexivity|discriminate]].
    + destruct (has (mirrors s) n) eqn:K; cbn [fst snd].
      * apply has_iff in K. split; [split; [intros _; split; [exact K|reflexivity]|reflexivity]|]. split; [congruence|]. intros _.
        split; [intros x; apply drop_names|]. intros [] x K1 _; try reflexivity. congruence.
      * apply has_not in K. split; [split; [discriminate|intros (F & _); destruct (K F)]|split; [reflexivity|discriminate]].
Qed.

Lemma create_taken ro c q s k : proper_ctx c -> sound_stores s -> creates q = Some k -> allowed c MayCreate k -> taken q s ->
  handle ro c q s = (AlreadyExists, s).
Proof.
  intros P (W1 & W2 & _) C A T. apply (allow_iff c k MayCreate P) in A.
  destruct q; cbn [creates taken] in *; try discriminate C; try contradiction; injection C as <-; cbn [handle].
  - unfold create_topic. rewrite A. cbn [negb named] in *. rewrite (proj2 (has_iff _ _) T). reflexivity.
  - unfold create_spu. rewrite A. cbn [negb named] in *. destruct T as [T|(m & u & H & E)].
    + rewrite (proj2 (has_iff _ _) T). reflexivity.
    + replace (existsb _ _) with true; [rewrite orb_true_r; reflexivity|]. symmetry. apply existsb_exists.
      exists (m, u). split; [exact H|]. cbn [snd]. lia.
  - unfold create_table. cbn [named] in T. rewrite (proj2 (has_iff _ _) T). reflexivity.
Qed.
Lemma mirror_made c n m s : sound_stores s ->
  (In (n, MRemote) (mirrors s) -> handle false c (CreateMirror n m) s = (AlreadyExists, s)) /\
  (~ In (n, MRemote) (mirrors s) -> fst (handle false c (CreateMirror n m) s) = Accepted /\
     forall x y, In (x, y) (mirrors (snd (handle false c (CreateMirror n m) s))) <-> (x = n /\ y = m) \/ (x <> n /\ In (x, y) (mirrors s))).
Proof.
  intros (_ & _ & _ & _ & _ & W). cbn [handle]. unfold create_mirror. split.
  - intros H. rewrite (proj2 (at_key_iff _ _ _ W) H). reflexivity.
  - intros N. assert (E : match at_key (mirrors s) n with
                          | Some MRemote => (AlreadyExists, s)
                          | _ => (Accepted, set_mirrors s (put (mirrors s) n m))
                          end = (Accepted, set_mirrors s (put (mirrors s) n m))).
    { destruct (at_key (mirrors s) n) as [[]|] eqn:K; try reflexivity. apply at_key_in in K. contradiction. }
    rewrite E. cbn [fst snd mirrors set_mirrors]. split; [reflexivity|]. intros x y. apply put_in, W.
Qed.
Lemma topic_put s n t r : NoDup (map fst (topics s)) -> t_system t = false ->
  topic_now n r s (set_topics s (put (topics s) n (mkTopic (t_system t) r))).
Proof.
  intros W F. unfold topic_now. cbn [set_topics topics spus groups partitions modules tables mirrors].
  refine (conj _ (conj _ (conj eq_refl (conj eq_refl (conj eq_refl (conj eq_refl (conj eq_refl eq_refl))))))).
  - intros t'. rewrite (put_in _ _ _ _ _ W), F. intuition congruence.
  - intros m t' N. rewrite (put_in _ _ _ _ _ W). tauto.
Qed.
Lemma partitions_added ro c n k s : sound_stores s ->
  (forall m, In (n, mkTopic false (Computed m)) (topics s) -> fst (handle ro c (AddPartitions n k) s) = Accepted /\
     topic_now n (Computed ((m + k) mod 2 ^ 32)) s (snd (handle ro c (AddPartitions n k) s))) /\
  ((forall m, ~ In (n, mkTopic false (Computed m)) (topics s)) ->
     fst (handle ro c (AddPartitions n k) s) <> Accepted /\ snd (handle ro c (AddPartitions n k) s) = s).
Proof.
  intros (W & _). cbn [handle]. unfold add_partitions. rewrite allow_inst. cbn [negb]. split.
  - intros m H. rewrite (proj2 (at_key_iff _ _ _ W) H). cbn [t_system t_replicas fst snd]. split; [reflexivity|].
    apply (topic_put s n (mkTopic false (Computed m)) _ W eq_refl).
  - intros N. destruct (at_key (topics s) n) as [[sys r]|] eqn:K; [|split; [discriminate|reflexivity]].
    cbn [t_system t_replicas]. apply at_key_in in K. destruct sys; [split; [discriminate|reflexivity]|].
    destruct r; try (split; [discriminate|reflexivity]). destruct (N _ K).
Qed.
Lemma remote_added ro c n r s : sound_stores s ->
  (forall l, In (n, mkTopic false (ToRemotes l)) (topics s) -> In (r, MRemote) (mirrors s) -> ~ In r l ->
     fst (handle ro c (AddRemote n r) s) = Accepted /\ topic_now n (ToRemotes (l ++ [r])) s (snd (handle ro c (AddRemote n r) s))) /\
  ((forall l, In (n, mkTopic false (ToRemotes l)) (topics s) -> In (r, MRemote) (mirrors s) -> In r l) ->
     fst (handle ro c (AddRemote n r) s) <> Accepted /\ snd (handle ro c (AddRemote n r) s) = s).
Proof.
  intros (W & _ & _ & _ & _ & W'). cbn [handle]. unfold add_remote. rewrite allow_inst. cbn [negb].
  assert (X : forall l, existsb (text_eqb r) l = true <-> In r l).
  { intros l. rewrite existsb_exists. split.
    - intros (y & H & E). apply text_eqb_iff in E as ->. exact H.
    - intros H. exists r. split; [exact H|apply text_eqb_iff; reflexivity]. }
  split.
  - intros l H M N. rewrite (proj2 (at_key_iff _ _ _ W) H), (proj2 (at_key_iff _ _ _ W') M). cbn [t_system t_replicas].
    destruct (existsb (text_eqb r) l) eqn:E; [apply X in E; contradiction|]. cbn [fst snd]. split; [reflexivity|].
    apply (topic_put s n (mkTopic false (ToRemotes l)) _ W eq_refl).
  - intros N. destruct (at_key (topics s) n) as [[sys rp]|] eqn:K; [|split; [discriminate|reflexivity]].
    destruct (at_key (mirrors s) r) as [[]|] eqn:M; try (split; [discriminate|reflexivity]).
    apply at_key_in in K, M. cbn [t_system t_replicas]. destruct rp as [| | |l]; try (split; [discriminate|reflexivity]).
    destruct (existsb (text_eqb r) l) eqn:E; [split; [discriminate|reflexivity]|].
    destruct sys; [split; [discriminate|reflexivity]|]. specialize (N l K M). apply X in N. congruence.
Qed.

(** ** the stores stay sound *)
Lemma nodup_put_ids (l : list (bytes * spu)) n id : has l n = false -> existsb (fun e => s_id (snd e) =? id) l = false ->
  NoDup (map (fun e => s_id (snd e)) l) -> NoDup (map (fun e => s_id (snd e)) (put l n (mkSpu id true))).
Proof.
  intros H E N. rewrite (put_new l n _ H), map_app. cbn [map snd s_id].
  apply NoDup_rev in N. rewrite <- (rev_involutive (map _ l)). change [id] with (rev [id]). rewrite <- rev_app_distr.
  apply NoDup_rev. cbn [app]. constructor; [|exact N]. intros F. apply in_rev in F. apply in_map_iff in F as (e & Q & F).
  assert (existsb (fun e => s_id (snd e) =? id) l = true); [|congruence]. apply existsb_exists. exists e. split; [exact F|lia].
Qed.
Lemma handle_sound ro c q s : sound_stores s -> sound_stores (snd (handle ro c q s)).
Proof.
  intros W. pose proof W as (W1 & W2 & W3 & W4 & W5 & W6).
  assert (T : forall l, NoDup (map fst l) -> sound_stores (set_topics s l)) by (intros l H; repeat split; assumption).
  assert (G : forall l, NoDup (map fst l) -> sound_stores (set_groups s l)) by (intros l H; repeat split; assumption).
  assert (B : forall l, NoDup (map fst l) -> sound_stores (set_tables s l)) by (intros l H; repeat split; assumption).
  assert (Mi : forall l, NoDup (map fst l) -> sound_stores (set_mirrors s l)) by (intros l H; repeat split; assumption).
  assert (S : forall l, NoDup (map fst l) -> NoDup (map (fun e => s_id (snd e)) l) -> sound_stores (set_spus s l))
    by (intros l H H'; repeat split; assumption).
  assert (U : forall n u, sound_stores (snd (unregister_spu n u s))).
  { intros n u. unfold unregister_spu. destruct (s_custom u); [|exact W]. apply S; apply nodup_filter; assumption. }
  destruct q; cbn [handle].
  - unfold create_topic. destruct (negb _); [exact W|]. destruct (has _ _); [exact W|]. destruct (negb _); [exact W|].
    destruct dry_run; [exact W|]. apply T, nodup_put, W1.
  - unfold create_group. destruct (negb _); [exact W|]. apply G, nodup_put, W4.
  - unfold create_spu. destruct (negb _); [exact W|]. destruct (has _ _) eqn:H; [exact W|]. destruct (existsb _ _) eqn:E; [exact W|].
    cbn [orb]. destruct dry_run; [exact W|]. apply S; [apply nodup_put, W2|]. apply nodup_put_ids; assumption.
  - unfold create_module. destruct (negb _); [exact W|]. destruct (create _ _ _) as [[] ?]; exact W.
  - unfold create_table. destruct (has _ _); [exact W|]. destruct (negb _); [exact W|]. apply B, nodup_put, W5.
  - unfold create_mirror. destruct ro; [exact W|]. destruct (at_key _ _) as [[]|]; try exact W; apply Mi, nodup_put, W6.
  - unfold delete_topic. destruct (negb _); [exact W|]. destruct (at_key _ _) as [t|]; [|exact W].
    destruct (t_replicas t); try exact W; (destruct (_ && _); [exact W|]; apply T, nodup_filter, W1).
  - unfold delete_spu. destruct (negb _); [exact W|]. destruct (at_key _ _) as [u|]; [|exact W]. apply U.
  - unfold delete_spu_id. destruct (negb _); [exact W|]. destruct (find _ _) as [u|]; [|exact W]. apply U.
  - unfold delete_group. destruct (negb _); [exact W|]. destruct (has _ _); [|exact W]. apply G, nodup_filter, W4.
  - unfold delete_module. destruct (negb _); [exact W|]. destruct (delete _ _) as [[] ?]; exact W.
  - unfold delete_table. destruct (negb _); [exact W|]. destruct (has _ _); [|exact W]. apply B, nodup_filter, W5.
  - unfold delete_mirror. destruct ro; [exact W|]. destruct (has _ _); [|exact W]. apply Mi, nodup_filter, W6.
  - unfold add_partitions. destruct (negb _); [exact W|]. destruct (at_key _ _) as [t|]; [|exact W].
    destruct (t_system t) eqn:E; [exact W|]. destruct (t_replicas t); try exact W. apply T, nodup_put, W1.
  - unfold add_remote. destruct (negb _); [exact W|]. destruct (at_key (topics s) _) as [t|]; [|exact W].
    destruct (at_key _ _) as [[]|]; try exact W. destruct (t_replicas t); try exact W. destruct (existsb _ _); [exact W|].
    destruct (t_system t); [exact W|]. apply T, nodup_put, W1.
  - exact W.
  - exact W.
Qed.
Lemma session_sound ro c qs : forall s, sound_stores s -> sound_stores (snd (session ro c qs s)).
Proof.
  induction qs as [|q qs IH]; intros s W; [exact W|]. cbn [session]. pose proof (handle_sound ro c q s W) as H.
  destruct (handle ro c q s) as [a s']. cbn [snd] in H. specialize (IH s' H).
  destruct (session ro c qs s') as [l s'']. cbn [snd] in IH. destruct a; cbn [snd]; assumption.
Qed.
Lemma a_state_sound : sound_stores a_state.
Proof.
  unfold sound_stores, a_state. cbn [topics spus groups partitions modules tables mirrors map fst snd s_id].
  repeat split; repeat constructor; cbn; intuition discriminate.
Qed.
Lemma an_id_taken : taken (CreateSpu (lit "new") 1 false) a_state.
Proof. right. exists (lit "spu-1"), (mkSpu 1 false). split; [left; reflexivity|reflexivity]. Qed.
Lemma some_spus : target (DeleteSpuId 2) a_state Spu (lit "custom-2") /\
  deletable false (DeleteSpuId 2) a_state (lit "custom-2") /\ target (DeleteSpu (lit "spu-1")) a_state Spu (lit "spu-1") /\
  ~ deletable false (DeleteSpu (lit "spu-1")) a_state (lit "spu-1").
Proof.
  refine (conj _ (conj _ (conj (conj eq_refl eq_refl) _))).
  - split; [reflexivity|]. exists (mkSpu 2 true). split; [right; left; reflexivity|reflexivity].
  - exists (mkSpu 2 true). split; [right; left; reflexivity|reflexivity].
  - intros (u & [H|[H|[]]] & C); [injection H as <-; discriminate C|discriminate H].
Qed.
Lemma partitions_lost : exists c n m k s, sound_stores s /\ 0 < m < 2 ^ 32 /\ 0 < k < 2 ^ 32 /\
  In (n, mkTopic false (Computed m)) (topics s) /\
  fst (handle false c (AddPartitions n k) s) = Accepted /\
  In (n, mkTopic false (Computed 0)) (topics (snd (handle false c (AddPartitions n k) s))).
Proof.
  exists Root, (lit "orders"), 2, (2 ^ 32 - 2), a_state.
  refine (conj a_state_sound (conj _ (conj _ (conj _ (conj _ _))))); [lia|lia|left; reflexivity|vm_compute; reflexivity|].
  vm_compute. left. reflexivity.
Qed.

Lemma not_accepted ro c q s : fst (handle ro c q s) <> Accepted -> snd (handle ro c q s) = s.
Proof.
  assert (U : forall n u, fst (unregister_spu n u s) <> Accepted -> snd (unregister_spu n u s) = s).
  { intros n u. unfold unregister_spu. destruct (s_custom u); cbn [fst snd]; congruence. }
  destruct q; cbn [handle];
    unfold create_topic, create_group, create_spu, create_module, create_table, create_mirror, delete_topic, delete_spu,
      delete_spu_id, delete_group, delete_module, delete_table, delete_mirror, add_partitions, add_remote;
    repeat match goal with
           | |- fst (_, _) <> _ -> _ => cbn [fst snd]; congruence
           | |- fst (unregister_spu _ _ _) <> _ -> _ => apply U
           | |- context [if ?b then _ else _] => destruct b
           | |- context [match ?x with _ => _ end] => destruct x
           end.
Qed.
Lemma trial_topic ro c n t sound s : snd (handle ro c (CreateTopic n t true sound) s) = s /\
  fst (handle ro c (CreateTopic n t true sound) s) = fst (handle ro c (CreateTopic n t false sound) s).
Proof.
  cbn [handle]. unfold create_topic. destruct (negb _); [split; reflexivity|]. destruct (has _ _); [split; reflexivity|].
  destruct (negb _); split; reflexivity.
Qed.
Lemma trial_spu ro c n id s : snd (handle ro c (CreateSpu n id true) s) = s /\
  fst (handle ro c (CreateSpu n id true) s) = fst (handle ro c (CreateSpu n id false) s).
Proof.
  cbn [handle]. unfold create_spu. destruct (negb _); [split; reflexivity|]. destruct (_ || _); split; reflexivity.
Qed.
Lemma unsound_topic ro c n t dry sound s : sound s = false -> fst (handle ro c (CreateTopic n t dry sound) s) <> Accepted.
Proof.
  intros H. cbn [handle]. unfold create_topic. rewrite H. destruct (negb _); [discriminate|]. destruct (has _ _); discriminate.
Qed.
Lemma accepted_made ro c q s : sound_stores s -> fst (handle ro c q s) = Accepted -> made q s (snd (handle ro c q s)).
Proof.
  intros (W1 & W2 & _ & W4 & W5 & W6) A. destruct q; try exact I; cbn [handle made] in *.
  - unfold create_topic in *. destruct dry_run; [exact I|].
    destruct (negb _); [discriminate A|]. destruct (has _ _); [discriminate A|]. destruct (negb _); [discriminate A|].
    cbn [snd]. split; [|destruct s; reflexivity]. intros x y. apply put_in, W1.
  - unfold create_group in *. destruct (negb _); [discriminate A|].
    cbn [snd]. split; [|destruct s; reflexivity]. intros x y. apply put_in, W4.
  - unfold create_spu in *. destruct dry_run; [exact I|]. destruct (negb _); [discriminate A|]. destruct (_ || _); [discriminate A|].
    cbn [snd]. split; [|destruct s; reflexivity]. intros x y. apply put_in, W2.
  - unfold create_table in *. destruct (has _ _); [discriminate A|]. destruct (negb _); [discriminate A|].
    cbn [snd]. split; [|destruct s; reflexivity]. intros x y. apply put_in, W5.
  - unfold create_mirror in *. destruct ro; [discriminate A|].
    destruct (at_key _ _) as [[]|]; try discriminate A; cbn [snd]; (split; [|destruct s; reflexivity]); intros x y; apply put_in, W6.
Qed.
Lemma module_created ro c n m s : proper_ctx c -> allowed c MayCreate SmartModule ->
  snd (handle ro c (CreateModule n m) s) = set_modules s (snd (create n m (modules s))) /\
  (fst (handle ro c (CreateModule n m) s) = Accepted <-> exists id, fst (create n m (modules s)) = Done id).
Proof.
  intros P A. apply (allow_iff c _ _ P) in A. cbn [handle]. unfold create_module. rewrite A. cbn [negb]. unfold create.
  destruct (m_pkg m) as [p|]; [destruct (pkg_valid p)|]; cbn [fst snd].
  - split; [reflexivity|]. split; [eexists; reflexivity|reflexivity].
  - split; [destruct s; reflexivity|]. split; [discriminate|intros (id & F); discriminate F].
  - split; [reflexivity|]. split; [eexists; reflexivity|reflexivity].
Qed.
Lemma module_deleted ro c n s :
  snd (handle ro c (DeleteModule n) s) = set_modules s (snd (delete n (modules s))) /\
  (fst (handle ro c (DeleteModule n) s) = Accepted <-> exists id, fst (delete n (modules s)) = Done id).
Proof.
  cbn [handle]. unfold delete_module. rewrite allow_inst. cbn [negb]. unfold delete.
  destruct (qualified n) as [k|]; [destruct (entry _ _)|]; cbn [fst snd].
  - split; [reflexivity|]. split; [eexists; reflexivity|reflexivity].
  - split; [destruct s; reflexivity|]. split; [discriminate|intros (id & F); discriminate F].
  - split; [destruct s; reflexivity|]. split; [discriminate|intros (id & F); discriminate F].
Qed.
Lemma session_app ro c q1 q2 : forall s l1 s1, session ro c q1 s = (l1, s1) ->
  (In Closed l1 -> session ro c (q1 ++ q2) s = (l1, s1)) /\
  (~ In Closed l1 -> session ro c (q1 ++ q2) s = (l1 ++ fst (session ro c q2 s1), snd (session ro c q2 s1))).
Proof.
  induction q1 as [|q qs IH]; cbn [session app]; intros s l1 s1 E.
  - injection E as <- <-. split; [intros []|]. intros _. destruct (session ro c q2 s); reflexivity.
  - destruct (handle ro c q s) as [a s'].
    assert (K : a = Closed \/ a <> Closed) by (destruct a; (right; discriminate) || (left; reflexivity)).
    destruct K as [->|K].
    + injection E as <- <-. split; [reflexivity|]. intros N. destruct N. left. reflexivity.
    + destruct (session ro c qs s') as [l s''] eqn:S. destruct (IH s' l s'' S) as (I1 & I2).
      assert (F : l1 = a :: l /\ s1 = s'') by (destruct a; (injection E as <- <-; split; reflexivity) || congruence).
      destruct F as (-> & ->). split.
      * intros [F|F]; [congruence|]. rewrite (I1 F). destruct a; congruence.
      * intros N. rewrite I2; [|intros F; apply N; right; exact F]. destruct a; cbn [app]; congruence.
Qed.
