(** Proofs about the local metadata storage: memory, disk, steps. *)
From Verif Require Export LocalSpec.

(** * Maps *)
Lemma lookup_put {A} k (a : A) l j : lookup j (put k a l) = if Nat.eqb j k then Some a else lookup j l.
Proof.
  induction l as [|[k' b] t IH]; cbn [put lookup].
  - reflexivity.
  - destruct (Nat.eqb_spec k k') as [->|Hn].
    + cbn. destruct (Nat.eqb j k'); reflexivity.
    + destruct (Nat.ltb k k'); cbn [lookup]; [reflexivity|].
      rewrite IH. destruct (Nat.eqb_spec j k') as [->|]; [|reflexivity].
      destruct (Nat.eqb_spec k' k); congruence.
Qed.
Lemma lookup_del {A} k (l : list (nat * A)) j : lookup j (del k l) = if Nat.eqb j k then None else lookup j l.
Proof.
  induction l as [|[k' b] t IH]; cbn.
  - destruct (Nat.eqb j k); reflexivity.
  - destruct (Nat.eqb_spec k k') as [->|Hn].
    + rewrite IH. destruct (Nat.eqb_spec j k'); reflexivity.
    + cbn. rewrite IH. destruct (Nat.eqb_spec j k') as [->|]; [|reflexivity].
      destruct (Nat.eqb_spec k' k); congruence.
Qed.
Lemma in_put {A} k (a : A) l x : In x (put k a l) -> x = (k, a) \/ In x l.
Proof.
  induction l as [|[k' b] t IH]; cbn [put]; [cbn; intuition|].
  destruct (Nat.eqb k k'); [cbn; intuition|]. destruct (Nat.ltb k k'); cbn [In]; intuition.
Qed.
Lemma in_del {A} k (l : list (nat * A)) x : In x (del k l) -> In x l /\ fst x <> k.
Proof.
  induction l as [|[k' b] t IH]; cbn; [intuition|].
  destruct (Nat.eqb_spec k k') as [->|Hn]; cbn; [intuition|].
  intros [<-|H]; [cbn; split; [left; reflexivity|congruence]|]. destruct (IH H). intuition.
Qed.
Lemma lookup_in {A} k (l : list (nat * A)) a : lookup k l = Some a -> In (k, a) l.
Proof.
  induction l as [|[k' b] t IH]; cbn; [discriminate|].
  destruct (Nat.eqb_spec k k') as [->|]; [intros [= ->]; left; reflexivity|right; auto].
Qed.
Lemma nth_set {A} i (x : A) l j : nth_error (set_nth i x l) j = if Nat.eqb j i then (match nth_error l i with Some _ => Some x | None => None end) else nth_error l j.
Proof.
  revert l j. induction i as [|i IH]; intros [|a l] [|j]; cbn; try reflexivity.
  - destruct (Nat.eqb j i); reflexivity.
  - rewrite IH. reflexivity.
Qed.
Lemma length_set {A} i (x : A) l : length (set_nth i x l) = length l.
Proof. revert l. induction i as [|i IH]; intros [|a l]; cbn; [..|rewrite IH]; reflexivity. Qed.

(** * The invariant *)
Record good (s : sys) : Prop := mkGood {
  g_table : forall k h, lookup k (y_stores s) = Some h -> exists t, nth_error (y_heap s) h = Some t /\ t_kind t = k;
  g_heap : forall h t, nth_error (y_heap s) h = Some t -> lookup (t_kind t) (y_stores s) = Some h;
  g_data : forall h t n, nth_error (y_heap s) h = Some t -> lookup n (files s (t_kind t)) = option_map Whole (lookup n (t_data t));
  g_files : forall k n f, In (n, f) (files s k) -> exists o, f = Whole o /\ o_name o = n;
  g_names : forall h t n o, nth_error (y_heap s) h = Some t -> In (n, o) (t_data t) -> o_name o = n }.

Lemma load_good l : (forall n f, In (n, f) l -> exists o, f = Whole o /\ o_name o = n) ->
  exists d, load_files l = Some d /\ (forall n o, In (n, o) d -> o_name o = n) /\ forall n, lookup n l = option_map Whole (lookup n d).
Proof.
  induction l as [|[n f] t IH]; intros H.
  - exists []. split; [reflexivity|]. split; [intros n o []|reflexivity].
  - destruct (H n f (or_introl eq_refl)) as [o [-> <-]].
    destruct IH as [d [E [Nm L]]]; [intros n' f' Hin; apply H; right; exact Hin|].
    exists (put (o_name o) o d). split; [cbn; rewrite E; reflexivity|].
    split; [intros n o' Hin; apply in_put in Hin; destruct Hin as [[= -> ->]|Hin]; [reflexivity|eauto]|].
    intros n. cbn. rewrite lookup_put. destruct (Nat.eqb n (o_name o)); [reflexivity|apply L].
Qed.
Lemma files_set s k l k' : match lookup k' (set_files s k l) with Some x => x | None => [] end = if Nat.eqb k' k then l else files s k'.
Proof. unfold set_files, files. rewrite lookup_put. destruct (Nat.eqb k' k); reflexivity. Qed.

(** What is seen is what is on the disk. *)
Lemma visible_disk s k n : good s -> lookup n (files s k) = option_map Whole (visible s k n).
Proof.
  intros G. unfold visible. destruct (lookup k (y_stores s)) as [h|] eqn:E.
  - destruct (g_table s G k h E) as [t [Et <-]]. rewrite Et. apply (g_data s G h t n Et).
  - destruct (load_good (files s k)) as [d [Ed [Nm L]]]; [intros; eapply g_files; eauto|]. rewrite Ed. apply L.
Qed.
Lemma visible_name s k n o : good s -> visible s k n = Some o -> o_name o = n.
Proof.
  intros G V. pose proof (visible_disk s k n G) as D. rewrite V in D. cbn in D.
  apply lookup_in in D. destruct (g_files s G k n _ D) as [o' [[= <-] Hn]]. exact Hn.
Qed.
Lemma good_readable s k : good s -> readable s k.
Proof. intros G. unfold readable. destruct (load_good (files s k)) as [d [Ed _]]; [intros; eapply g_files; eauto|]. rewrite Ed. discriminate. Qed.
Lemma visible_same s s' : good s -> good s' -> y_disk s' = y_disk s -> forall k n, visible s' k n = visible s k n.
Proof.
  intros G G' D k n. pose proof (visible_disk s k n G) as A. pose proof (visible_disk s' k n G') as B.
  unfold files in A, B. rewrite D in B. rewrite A in B.
  destruct (visible s k n), (visible s' k n); cbn in B; congruence.
Qed.
Lemma visible_upd s s' k' n' w : good s -> good s' ->
  (forall k n, lookup n (files s' k) = if Nat.eqb k k' && Nat.eqb n n' then option_map Whole w else lookup n (files s k)) ->
  forall k n, visible s' k n = if Nat.eqb k k' && Nat.eqb n n' then w else visible s k n.
Proof.
  intros G G' D k n. pose proof (visible_disk s k n G) as A. pose proof (visible_disk s' k n G') as B.
  rewrite D in B. destruct (Nat.eqb k k' && Nat.eqb n n').
  - destruct w, (visible s' k n); cbn in B; congruence.
  - rewrite A in B. destruct (visible s k n), (visible s' k n); cbn in B; congruence.
Qed.
Lemma good_restart d s : good s -> d = y_disk s -> good (mkSys [] [] d).
Proof.
  intros G ->. constructor; cbn.
  - discriminate.
  - intros [|h]; discriminate.
  - intros [|h]; discriminate.
  - apply (g_files s G).
  - intros [|h]; discriminate.
Qed.
Lemma good0 : good (c_sys mach0).
Proof. constructor; cbn; try discriminate; try (intros [|h]; discriminate). intros k n f []. Qed.

Definition kind_of (s : sys) (h : nat) : option kind := option_map t_kind (nth_error (y_heap s) h).
Lemma visible_at s h t n : good s -> nth_error (y_heap s) h = Some t -> visible s (t_kind t) n = lookup n (t_data t).
Proof. intros G E. unfold visible. rewrite (g_heap s G h t E), E. reflexivity. Qed.

(** * Changing one store *)
Lemma good_set s h t d v q dk :
  good s -> nth_error (y_heap s) h = Some t ->
  (forall k, k <> t_kind t -> files (mkSys [] [] dk) k = files s k) ->
  (forall n, lookup n (files (mkSys [] [] dk) (t_kind t)) = option_map Whole (lookup n d)) ->
  (forall n f, In (n, f) (files (mkSys [] [] dk) (t_kind t)) -> exists o, f = Whole o /\ o_name o = n) ->
  (forall n o, In (n, o) d -> o_name o = n) ->
  good (mkSys (set_nth h (mkStore (t_kind t) v d q) (y_heap s)) (y_stores s) dk).
Proof.
  intros G E Fo Fl Fi Fn. constructor; cbn [y_heap y_stores y_disk].
  - intros k h' L. destruct (g_table s G k h' L) as [t' [E' K]].
    rewrite nth_set. destruct (Nat.eqb_spec h' h) as [->|]; [|exists t'; auto].
    rewrite E. eexists. split; [reflexivity|]. cbn. congruence.
  - intros h' t' E'. rewrite nth_set in E'. destruct (Nat.eqb_spec h' h) as [->|]; [|apply (g_heap s G h' t' E')].
    rewrite E in E'. injection E' as <-. cbn. apply (g_heap s G h t E).
  - intros h' t' n E'. rewrite nth_set in E'. destruct (Nat.eqb_spec h' h) as [->|Hn].
    + rewrite E in E'. injection E' as <-. cbn [t_kind t_data]. apply Fl.
    + change (files (mkSys (set_nth h (mkStore (t_kind t) v d q) (y_heap s)) (y_stores s) dk) (t_kind t')) with (files (mkSys [] [] dk) (t_kind t')).
      rewrite Fo; [apply (g_data s G h' t' n E')|].
      intros K. apply Hn. pose proof (g_heap s G h t E) as A. pose proof (g_heap s G h' t' E') as B. rewrite K in B. congruence.
  - intros k n f. change (files (mkSys (set_nth h (mkStore (t_kind t) v d q) (y_heap s)) (y_stores s) dk) k) with (files (mkSys [] [] dk) k).
    destruct (Nat.eq_dec k (t_kind t)) as [->|Hk]; [apply Fi|]. rewrite Fo by exact Hk. apply (g_files s G).
  - intros h' t' n o E'. rewrite nth_set in E'. destruct (Nat.eqb_spec h' h) as [->|]; [|apply (g_names s G h' t' n o E')].
    rewrite E in E'. injection E' as <-. apply Fn.
Qed.
Lemma good_quiet s h t v q : good s -> nth_error (y_heap s) h = Some t ->
  good (mkSys (set_nth h (mkStore (t_kind t) v (t_data t) q) (y_heap s)) (y_stores s) (y_disk s)).
Proof.
  intros G E. apply good_set; auto.
  - intros n. apply (g_data s G h t n E).
  - intros n f. apply (g_files s G).
  - intros n o. apply (g_names s G h t n o E).
Qed.

(** What an accepted write stores. *)
Definition stored (prev : option obj) (o o' : obj) : Prop :=
  match prev with
  | None => o' = o
  | Some p => o_rev p <= o_rev o /\ o' = with_item o (with_rev (o_item o) (o_rev p + 1))
  end.
Lemma stored_name prev o o' : stored prev o o' -> o_name o' = o_name o.
Proof. destruct prev; cbn; [intros [_ ->]|intros ->]; reflexivity. Qed.

Lemma put_step s h o s' r : good s -> micro_step s (Put h o) Fine = Some (s', r) ->
  exists t, nth_error (y_heap s) h = Some t /\
  ((r = RErr /\ s' = s /\ exists p, visible s (t_kind t) (o_name o) = Some p /\ o_rev o < o_rev p) \/
   (exists o', r = RPut o' /\ stored (visible s (t_kind t) (o_name o)) o o' /\ good s' /\ y_stores s' = y_stores s /\
      y_heap s' = set_nth h (mkStore (t_kind t) (t_version t) (put (o_name o) o' (t_data t)) (t_queue t)) (y_heap s) /\
      forall k n, visible s' k n = if Nat.eqb k (t_kind t) && Nat.eqb n (o_name o) then Some o' else visible s k n)).
Proof.
  intros G. cbn [micro_step]. destruct (nth_error (y_heap s) h) as [t|] eqn:E; [|discriminate].
  intros H. exists t. split; [reflexivity|]. rewrite (visible_at s h t _ G E).
  assert (W : forall o', o_name o' = o_name o ->
    let s1 := mkSys (set_nth h (mkStore (t_kind t) (t_version t) (put (o_name o) o' (t_data t)) (t_queue t)) (y_heap s)) (y_stores s)
                (set_files s (t_kind t) (put (o_name o) (Whole o') (files s (t_kind t)))) in
    good s1 /\ forall k n, visible s1 k n = if Nat.eqb k (t_kind t) && Nat.eqb n (o_name o) then Some o' else visible s k n).
  { intros o' Hn s1.
    assert (G1 : good s1).
    { apply good_set; auto.
      - intros k Hk. unfold files at 1. cbn [y_disk]. rewrite files_set. destruct (Nat.eqb_spec k (t_kind t)); congruence.
      - intros n. unfold files at 1. cbn [y_disk]. rewrite files_set, Nat.eqb_refl, !lookup_put.
        destruct (Nat.eqb n (o_name o)); [reflexivity|]. apply (g_data s G h t n E).
      - intros n f. unfold files at 1. cbn [y_disk]. rewrite files_set, Nat.eqb_refl. intros Hin. apply in_put in Hin.
        destruct Hin as [[= -> ->]|Hin]; [eauto|apply (g_files s G _ _ _ Hin)].
      - intros n o1 Hin. apply in_put in Hin. destruct Hin as [[= -> ->]|Hin]; [exact Hn|apply (g_names s G _ _ _ _ E Hin)]. }
    split; [exact G1|]. apply visible_upd; auto. intros k n. unfold files at 1, s1. cbn [y_disk]. rewrite files_set.
    destruct (Nat.eqb_spec k (t_kind t)) as [->|]; [|reflexivity]. rewrite lookup_put. destruct (Nat.eqb n (o_name o)); reflexivity. }
  destruct (lookup (o_name o) (t_data t)) as [p|] eqn:L.
  - destruct (o_rev o <? o_rev p) eqn:Lt.
    + injection H as <- <-. left. apply Z.ltb_lt in Lt. eauto.
    + apply Z.ltb_ge in Lt. injection H as <- <-. right. eexists. split; [reflexivity|].
      destruct (W (with_item o (with_rev (o_item o) (o_rev p + 1))) eq_refl) as [G1 V1].
      split; [split; [exact Lt|reflexivity]|]. split; [exact G1|]. split; [reflexivity|]. split; [reflexivity|exact V1].
  - injection H as <- <-. right. exists o. destruct (W o eq_refl) as [G1 V1].
    split; [reflexivity|]. split; [reflexivity|]. split; [exact G1|]. split; [reflexivity|]. split; [reflexivity|exact V1].
Qed.

Lemma remove_step s h n0 s' r : good s -> micro_step s (Remove h n0) Fine = Some (s', r) ->
  exists t, nth_error (y_heap s) h = Some t /\ r = RObj (visible s (t_kind t) n0) /\ good s' /\ y_stores s' = y_stores s /\
    (forall k n, visible s' k n = if Nat.eqb k (t_kind t) && Nat.eqb n n0 then None else visible s k n) /\
    match visible s (t_kind t) n0 with
    | None => s' = s
    | Some o => y_heap s' = set_nth h (mkStore (t_kind t) (t_version t) (del n0 (t_data t)) (t_queue t)) (y_heap s)
    end.
Proof.
  intros G. cbn [micro_step]. destruct (nth_error (y_heap s) h) as [t|] eqn:E; [|discriminate].
  intros H. exists t. split; [reflexivity|]. rewrite (visible_at s h t n0 G E).
  destruct (lookup n0 (t_data t)) as [o|] eqn:L; injection H as <- <-.
  - split; [reflexivity|].
    match goal with |- good ?x /\ _ => assert (G1 : good x) end.
    { apply good_set; auto.
      - intros k Hk. unfold files at 1. cbn [y_disk]. rewrite files_set. destruct (Nat.eqb_spec k (t_kind t)); congruence.
      - intros n. unfold files at 1. cbn [y_disk]. rewrite files_set, Nat.eqb_refl, !lookup_del.
        destruct (Nat.eqb n n0); [reflexivity|]. apply (g_data s G h t n E).
      - intros n f. unfold files at 1. cbn [y_disk]. rewrite files_set, Nat.eqb_refl. intros Hin. apply in_del in Hin.
        apply (g_files s G _ _ _ (proj1 Hin)).
      - intros n o1 Hin. apply in_del in Hin. apply (g_names s G _ _ _ _ E (proj1 Hin)). }
    split; [exact G1|]. split; [reflexivity|]. split; [|reflexivity].
    apply visible_upd; auto. intros k n. unfold files at 1. cbn [y_disk]. rewrite files_set.
    destruct (Nat.eqb_spec k (t_kind t)) as [->|]; [|reflexivity]. rewrite lookup_del. destruct (Nat.eqb n n0); reflexivity.
  - split; [reflexivity|]. split; [exact G|]. split; [reflexivity|]. split; [|reflexivity].
    intros k n. destruct (Nat.eqb_spec k (t_kind t)) as [->|]; [|reflexivity]. destruct (Nat.eqb_spec n n0) as [->|]; [|reflexivity].
    cbn. rewrite (visible_at s h t n0 G E). exact L.
Qed.

Lemma load_step s k s' r : good s -> lookup k (y_stores s) = None -> micro_step s (Load k) Fine = Some (s', r) ->
  exists d, good s' /\ y_disk s' = y_disk s /\ r = RStore (Some (length (y_heap s))) /\
    y_heap s' = y_heap s ++ [mkStore k 0 d []] /\ y_stores s' = put k (length (y_heap s)) (y_stores s).
Proof.
  intros G N H. cbn [micro_step] in H.
  destruct (load_good (files s k)) as [d [Ed [Nm L]]]; [intros; eapply g_files; eauto|].
  rewrite Ed in H. injection H as <- <-. exists d. split; [|repeat split].
  constructor; cbn [y_heap y_stores y_disk].
  - intros k' h. rewrite lookup_put. destruct (Nat.eqb_spec k' k) as [->|].
    + intros [= <-]. exists (mkStore k 0 d []). rewrite nth_error_app2, Nat.sub_diag by lia. split; reflexivity.
    + intros E. destruct (g_table s G k' h E) as [t [Et Kt]]. exists t.
      rewrite nth_error_app1; [split; auto|]. apply nth_error_Some. congruence.
  - intros h t E. destruct (Nat.lt_ge_cases h (length (y_heap s))) as [Hl|Hl].
    + rewrite nth_error_app1 in E by exact Hl. pose proof (g_heap s G h t E) as A. rewrite lookup_put.
      destruct (Nat.eqb_spec (t_kind t) k) as [Ek|]; [|exact A]. rewrite Ek in A. congruence.
    + rewrite nth_error_app2 in E by exact Hl. destruct (h - length (y_heap s))%nat as [|j] eqn:D; [|destruct j; discriminate].
      injection E as <-. cbn. rewrite lookup_put, Nat.eqb_refl. f_equal. lia.
  - intros h t n E. destruct (Nat.lt_ge_cases h (length (y_heap s))) as [Hl|Hl].
    + rewrite nth_error_app1 in E by exact Hl. apply (g_data s G h t n E).
    + rewrite nth_error_app2 in E by exact Hl. destruct (h - length (y_heap s))%nat as [|j] eqn:D; [|destruct j; discriminate].
      injection E as <-. cbn [t_kind t_data]. apply L.
  - apply (g_files s G).
  - intros h t n o E. destruct (Nat.lt_ge_cases h (length (y_heap s))) as [Hl|Hl].
    + rewrite nth_error_app1 in E by exact Hl. apply (g_names s G h t n o E).
    + rewrite nth_error_app2 in E by exact Hl. destruct (h - length (y_heap s))%nat as [|j] eqn:D; [|destruct j; discriminate].
      injection E as <-. cbn [t_data]. apply Nm.
Qed.

(** Steps that change nothing that is seen. *)
Definition quiet (m : micro) : Prop := match m with Put _ _ | Remove _ _ => False | _ => True end.
Lemma quiet_step s m f s' r : good s -> micro_step s m f = Some (s', r) -> (forall k, m = Load k -> lookup k (y_stores s) = None) ->
  quiet m -> good s' /\ y_disk s' = y_disk s.
Proof.
  intros G H N Q. destruct m; cbn [quiet] in Q; try contradiction.
  - cbn in H. injection H as <- <-. auto.
  - destruct (load_step s k s' r G (N k eq_refl) H) as [d [G1 [D _]]]. auto.
  - cbn in H. destruct (nth_error (y_heap s) h); [injection H as <- <-; auto|discriminate].
  - cbn in H. destruct (nth_error (y_heap s) h) as [t|] eqn:E; [|discriminate]. injection H as <- <-. split; [|reflexivity]. apply good_quiet; auto.
  - cbn [micro_step] in H. destruct (nth_error (y_heap s) h) as [t|] eqn:E; [|discriminate]. destruct (Nat.ltb (length (t_queue t)) max_updates); [|discriminate].
    injection H as <- <-. split; [|reflexivity]. apply good_quiet; auto.
  - cbn in H. destruct (nth_error (y_heap s) h); [injection H as <- <-; auto|discriminate].
  - cbn in H. destruct (nth_error (y_heap s) h); [injection H as <- <-; auto|discriminate].
Qed.

(** * Histories *)
Lemma mach_good s e s' : good (c_sys s) -> calm s e -> mach_step s e = Some s' ->
  good (c_sys s') /\ forall k n, visible (c_sys s') k n = match writes s e k n with Some w => w | None => visible (c_sys s) k n end.
Proof.
  intros G [NF NR] H. destruct e as [p|i f|h| |i].
  - cbn in H. injection H as <-. split; [exact G|reflexivity].
  - cbn [no_fault] in NF. subst f. cbn [mach_step] in H. destruct (nth_error (c_tasks s) i) as [[r|m c]|] eqn:Ei; try discriminate.
    destruct (micro_step (c_sys s) m Fine) as [[y r]|] eqn:M; [|discriminate]. injection H as <-. cbn [c_sys].
    assert (N : forall k, m = Load k -> lookup k (y_stores (c_sys s)) = None) by (intros k ->; exact (NR k c Ei)).
    destruct m as [k|k|h n|h o|h n|h|h v u|h|h];
      try (destruct (quiet_step (c_sys s) _ Fine y r G M N Logic.I) as [G1 D]; split; [exact G1|];
           intros k1 n1; unfold writes; rewrite Ei; apply visible_same; auto).
    + destruct (put_step _ _ _ _ _ G M) as [t [Et [[-> [-> _]]|[o' [-> [St [G1 [_ [_ V]]]]]]]]].
      * split; [exact G|]. intros k n. unfold writes. rewrite Ei, Et, M. reflexivity.
      * split; [exact G1|]. intros k n. unfold writes. rewrite Ei, Et, M, V.
        rewrite (Nat.eqb_sym k), (Nat.eqb_sym n). destruct (Nat.eqb (t_kind t) k && Nat.eqb (o_name o) n); reflexivity.
    + destruct (remove_step _ _ _ _ _ G M) as [t [Et [-> [G1 [_ [V _]]]]]].
      split; [exact G1|]. intros k n1. unfold writes. rewrite Ei, Et, V.
      rewrite (Nat.eqb_sym k), (Nat.eqb_sym n1). destruct (Nat.eqb (t_kind t) k && Nat.eqb n n1); reflexivity.
  - cbn [mach_step] in H. destruct (nth_error (y_heap (c_sys s)) h) as [[k v d [|x q]]|] eqn:E; try discriminate.
    injection H as <-. cbn [c_sys].
    pose proof (good_quiet (c_sys s) h _ v q G E) as G1. cbn [t_kind t_data] in G1. split; [exact G1|].
    intros k1 n1. apply visible_same; auto.
  - cbn in H. injection H as <-. unfold restart. cbn [c_sys].
    pose proof (good_restart _ (c_sys s) G eq_refl) as G1. split; [exact G1|]. intros k n. apply visible_same; auto.
  - destruct NF.
Qed.
Lemma runs_good s es s' : runs calm s es s' -> good (c_sys s) -> good (c_sys s').
Proof. induction 1 as [|s e s1 es s2 C M _ IH]; intros G; [exact G|]. apply IH. apply (mach_good s e s1 G C M). Qed.
Lemma runs_history s es s' k n : runs calm s es s' -> good (c_sys s) ->
  visible (c_sys s') k n = last (history s es k n) (visible (c_sys s) k n).
Proof.
  induction 1 as [|s e s1 es s2 C M R IH]; intros G; [reflexivity|].
  destruct (mach_good s e s1 G C M) as [G1 V]. cbn [history]. rewrite M, (IH G1), V.
  destruct (writes s e k n) as [w|]; [|reflexivity].
  cbn [app]. destruct (history s1 es k n) as [|x l]; [reflexivity|]. clear. revert x w.
  induction l as [|y l IH]; intros x w; [reflexivity|].
  change (last (x :: y :: l) w) with (last (y :: l) w). rewrite (IH y w). reflexivity.
Qed.

(** The revision of what is written. *)
Lemma writes_rev s e s' k n o o' : good (c_sys s) -> calm s e -> mach_step s e = Some s' ->
  visible (c_sys s) k n = Some o -> writes s e k n = Some (Some o') -> o_rev o' = o_rev o + 1.
Proof.
  intros G [NF _] H V W. destruct e as [p|i f|h| |i]; try discriminate W. cbn [no_fault] in NF. subst f. unfold writes in W.
  destruct (nth_error (c_tasks s) i) as [[r|m c]|] eqn:Ei; try discriminate.
  destruct m as [k1|k1|h n1|h o1|h n1|h|h v u|h|h]; try discriminate.
  - destruct (nth_error (y_heap (c_sys s)) h) as [t|] eqn:Et; [|discriminate].
    destruct (micro_step (c_sys s) (Put h o1) Fine) as [[y r]|] eqn:M; [|discriminate].
    destruct (put_step _ _ _ _ _ G M) as [t' [Et' D]]. rewrite Et in Et'. injection Et' as <-.
    destruct D as [[-> _]|[o2 [-> [St _]]]]; [discriminate|].
    destruct (Nat.eqb_spec (t_kind t) k) as [<-|]; [|discriminate]. destruct (Nat.eqb_spec (o_name o1) n) as [<-|]; [|discriminate].
    injection W as <-. rewrite V in St. cbn in St. destruct St as [_ ->]. reflexivity.
  - destruct (nth_error (y_heap (c_sys s)) h) as [t|]; [|discriminate]. destruct (Nat.eqb (t_kind t) k && Nat.eqb n1 n); discriminate.
Qed.
Lemma runs_rev s es s' k n : runs calm s es s' -> good (c_sys s) -> forall o,
  visible (c_sys s) k n = Some o -> ~ In None (history s es k n) ->
  exists o', visible (c_sys s') k n = Some o' /\ o_rev o' = o_rev o + Z.of_nat (length (history s es k n)).
Proof.
  induction 1 as [|s e s1 es s2 C M R IH]; intros G o V NI.
  - exists o. split; [exact V|]. cbn. lia.
  - destruct (mach_good s e s1 G C M) as [G1 V1]. cbn [history] in *. rewrite M in *.
    specialize (V1 k n). destruct (writes s e k n) as [[o1|]|] eqn:W.
    + pose proof (writes_rev s e s1 k n o o1 G C M V W) as Rv.
      destruct (IH G1 o1 V1) as [o' [Vo Ro]]; [intros Hin; apply NI; right; exact Hin|].
      exists o'. split; [exact Vo|]. cbn [app length]. lia.
    + exfalso. apply NI. left. reflexivity.
    + cbn [app] in *. rewrite V in V1. apply (IH G1 o V1 NI).
Qed.
Lemma refused s i h o c t p : good (c_sys s) -> nth_error (c_tasks s) i = Some (Do (Put h o) c) ->
  nth_error (y_heap (c_sys s)) h = Some t -> visible (c_sys s) (t_kind t) (o_name o) = Some p -> o_rev o < o_rev p ->
  mach_step s (Run i Fine) = Some (mkMach (c_sys s) (set_nth i (c RErr) (c_tasks s))).
Proof.
  intros G Ei Et V Lt. cbn [mach_step]. rewrite Ei. cbn [micro_step]. rewrite Et.
  rewrite (visible_at _ h t _ G Et) in V. rewrite V. apply Z.ltb_lt in Lt. rewrite Lt. reflexivity.
Qed.
