(** Proofs about watching, and concrete histories. *)
From Verif Require Export LocalLinks.

(** * Operations are made of reads and of whole updates *)
Definition reading (m : micro) : Prop := match m with Look _ | Get _ _ | Version _ | All _ => True | _ => False end.
Inductive blocks : prog -> Prop :=
  | b_ret r : blocks (Ret r)
  | b_store k c : (forall h, blocks (c h)) -> blocks (get_store k c)
  | b_read m c : reading m -> (forall r, blocks (c r)) -> blocks (Do m c)
  | b_apply h o c : blocks c -> blocks (store_apply h o c)
  | b_delete h n c : blocks c -> blocks (store_delete h n c).
Lemma blocks_delete_list h l c : blocks c -> blocks (delete_list h l c).
Proof. intros B. induction l as [|i l IH]; cbn; [exact B|]. apply b_delete. exact IH. Qed.
Lemma blocks_delete_children m c : blocks c -> blocks (delete_children m c).
Proof.
  intros B. induction m as [|[k l] m IH]; cbn; [exact B|]. apply b_read; [exact Logic.I|].
  intros [| |[h|]| | | | |]; try apply b_ret. apply blocks_delete_list. exact IH.
Qed.
Lemma blocks_relink owner change k p ch c : blocks c -> blocks (relink owner change k p ch c).
Proof.
  intros B. apply b_store. intros h. apply b_read; [exact Logic.I|]. intros [| | |[o|]| | | |]; try apply b_ret. apply b_apply. exact B.
Qed.
Lemma blocks_of owner a : blocks (prog_of owner a).
Proof.
  destruct a as [k o|k i|k i spec|k n spec|k i status|k]; cbn [prog_of]; apply b_store; intros h.
  - apply b_apply. destruct (i_parent (o_item o)); [apply blocks_relink|]; apply b_ret.
  - apply b_read; [exact Logic.I|]. intros [| | |[o|]| | | |]; try apply b_ret.
    assert (B : blocks (delete_children (match i_children (o_item o) with Some m => m | None => [] end) (store_delete h (i_id i) (Ret RUnit))))
      by (apply blocks_delete_children, b_delete, b_ret).
    destruct (i_parent (o_item o)); [apply blocks_relink|]; exact B.
  - apply b_read; [exact Logic.I|]. intros [| | |[o|]| | | |]; apply b_apply, b_ret.
  - apply b_read; [exact Logic.I|]. intros [| | |[o|]| | | |]; apply b_apply, b_ret.
  - apply b_read; [exact Logic.I|]. intros [| | |[o|]| | | |]; try apply b_ret. apply b_apply. apply b_read; [exact Logic.I|].
    intros [| | |[o1|]| | | |]; apply b_ret.
  - apply b_read; [exact Logic.I|]. intros [| | | | |v| |]; try apply b_ret. apply b_read; [exact Logic.I|]. intros [| | | | | |l|]; apply b_ret.
Qed.

(** What holds of each store, and is kept by whole updates, is kept by operations. *)
Section Keep.
Context (Q : nat -> store -> Prop) (N : nat).
Definition each (s : sys) : Prop := forall h t, nth_error (y_heap s) h = Some t -> Q h t.
Context (Q_new : forall h k d, (N <= h)%nat -> Q h (mkStore k 0 d [])).
Context (Q_mod : forall h t n o, Q h t -> o_name o = n -> Q h (told t (put n o (t_data t)) (Mod o))).
Context (Q_del : forall h t n o, Q h t -> o_name o = n -> Q h (told t (del n (t_data t)) (Del o))).
Lemma each_set s s' h x : each s -> Q h x -> y_heap s' = set_nth h x (y_heap s) -> each s'.
Proof.
  intros A X H h' t'. rewrite H, nth_set. destruct (Nat.eqb_spec h' h) as [->|]; [|apply A].
  destruct (nth_error (y_heap s) h); [intros [= <-]; exact X|discriminate].
Qed.
Lemma exec_each p : blocks p -> forall s s' r, good s -> (N <= length (y_heap s))%nat -> each s -> exec p s = Some (s', r) ->
  good s' /\ each s' /\ same_kinds s s'.
Proof.
  induction 1 as [r0|k c B IH|m c Rd B IH|h o c B IH|h n c B IH]; intros s s' r G NL A X.
  - cbn [exec] in X. injection X as <- _. split; [exact G|]. split; [exact A|apply same_refl].
  - destruct (exec_get_store _ _ _ _ _ G X) as [s1 [h [t [G1 [D1 [E1 [K1 [F1 [N1 X1]]]]]]]]].
    assert (A1 : each s1).
    { destruct N1 as [->|[d Hd]]; [exact A|]. intros h' t' E'. rewrite Hd in E'.
      destruct (Nat.lt_ge_cases h' (length (y_heap s))) as [Hl|Hl]; [rewrite nth_error_app1 in E' by exact Hl; apply A; exact E'|].
      rewrite nth_error_app2 in E' by exact Hl. destruct (h' - length (y_heap s))%nat as [|j]; [|destruct j; discriminate]. injection E' as <-. apply Q_new. lia. }
    assert (NL1 : (N <= length (y_heap s1))%nat) by (destruct N1 as [->|[d Hd]]; [exact NL|rewrite Hd, app_length; lia]).
    destruct (IH h _ _ _ G1 NL1 A1 X1) as [G2 [A2 K2]]. split; [exact G2|]. split; [exact A2|].
    intros h' t' E'. apply K2. apply F1. exact E'.
  - cbn [exec] in X. destruct (micro_step s m Fine) as [[s1 r1]|] eqn:M; [|discriminate].
    assert (s1 = s). { destruct m; try (exfalso; exact Rd); cbn [micro_step] in M; try (destruct (nth_error (y_heap s) h)); try discriminate; injection M as <- _; reflexivity. }
    subst s1. exact (IH r1 _ _ _ G NL A X).
  - pose proof X as X0. unfold store_apply in X0. cbn [exec micro_step] in X0. destruct (nth_error (y_heap s) h) as [t|] eqn:E; [clear X0|discriminate].
    destruct (exec_apply _ _ _ _ _ _ _ G E X) as [[-> ->]|[s1 [o' [St [G1 [_ [H1 X1]]]]]]]; [split; [exact G|split; [exact A|apply same_refl]]|].
    assert (NL1 : (N <= length (y_heap s1))%nat) by (rewrite H1, length_set; exact NL).
    destruct (IH _ _ _ G1 NL1 (each_set s s1 h _ A (Q_mod h t (o_name o) o' (A h t E) (stored_name _ _ _ St)) H1) X1) as [G2 [A2 K2]].
    split; [exact G2|]. split; [exact A2|]. eapply same_trans; [|exact K2]. eapply same_set; [exact E|exact H1|reflexivity].
  - pose proof X as X0. unfold store_delete in X0. cbn [exec micro_step] in X0. destruct (nth_error (y_heap s) h) as [t|] eqn:E; [clear X0|discriminate].
    destruct (exec_delete _ _ _ _ _ _ _ G E X) as [s1 [G1 [_ [H1 X1]]]].
    destruct (visible s (t_kind t) n) as [o|] eqn:V.
    + pose proof (visible_name s _ _ _ G V) as Nm.
      assert (NL1 : (N <= length (y_heap s1))%nat) by (rewrite H1, length_set; exact NL).
    destruct (IH _ _ _ G1 NL1 (each_set s s1 h _ A (Q_del h t n o (A h t E) Nm) H1) X1) as [G2 [A2 K2]].
      split; [exact G2|]. split; [exact A2|]. eapply same_trans; [|exact K2]. eapply same_set; [exact E|exact H1|reflexivity].
    + subst s1. exact (IH _ _ _ G NL A X1).
Qed.
End Keep.

(** * Watching *)
Definition numbered (_ : nat) (t : store) : Prop := Forall (fun x => fst x < t_version t) (t_queue t).
Lemma told_numbered t (u : update) : Forall (fun x => fst x < t_version t) (t_queue t) -> Forall (fun x => fst x < t_version t + 1) (t_queue t ++ [(t_version t, u)]).
Proof.
  intros F. apply Forall_app. split; [eapply Forall_impl; [|exact F]; cbn; intros; lia|]. constructor; [cbn; lia|constructor].
Qed.
Lemma exec_numbered owner a s s' r : good s -> each numbered s -> exec (prog_of owner a) s = Some (s', r) -> good s' /\ each numbered s' /\ same_kinds s s'.
Proof.
  intros G A X. apply (exec_each numbered 0) with (p := prog_of owner a) (r := r); auto.
  - intros h k d _. constructor.
  - intros h t n o N _. unfold numbered, told. cbn [t_queue t_version]. apply told_numbered; auto.
  - intros h t n o N _. unfold numbered, told. cbn [t_queue t_version]. apply told_numbered; auto.
  - apply blocks_of.
  - lia.
Qed.
Lemma recv_ok s h k v d x q : good s -> nth_error (y_heap s) h = Some (mkStore k v d (x :: q)) ->
  good (mkSys (set_nth h (mkStore k v d q) (y_heap s)) (y_stores s) (y_disk s)).
Proof. intros G E. exact (good_quiet s h _ v q G E). Qed.
Lemma turns_numbered owner h s l s' : turns owner any_op h s l s' -> good s -> each numbered s -> good s' /\ each numbered s'.
Proof.
  induction 1 as [s|s a s1 r l s2 X _ _ IH|s h' k v d x q l s2 E _ IH]; intros G A; [auto| |].
  - destruct (exec_numbered owner a s s1 r G A X) as [G1 [A1 _]]. auto.
  - apply IH; [eapply recv_ok; eauto|]. eapply each_set; [exact A| |reflexivity].
    pose proof (A _ _ E) as N. unfold numbered in *. cbn in *. inversion N; assumption.
Qed.

(** What a watcher of the store at [h] has, with what it has received. *)
Definition synced (v : Z) (view : list (name * obj)) (rcv : list (Z * update)) (h0 h : nat) (t : store) : Prop :=
  h = h0 -> v <= t_version t /\ forall n, lookup n (fold_left (follow v) (rcv ++ t_queue t) view) = lookup n (t_data t).
Lemma exec_synced owner v view rcv h0 a s s' r : good s -> (exists t, nth_error (y_heap s) h0 = Some t) ->
  each (synced v view rcv h0) s -> exec (prog_of owner a) s = Some (s', r) ->
  good s' /\ each (synced v view rcv h0) s' /\ same_kinds s s'.
Proof.
  intros G [t0 E0] A X.
  assert (Lt : (h0 < length (y_heap s))%nat) by (apply nth_error_Some; congruence).
  assert (F : forall h t u, synced v view rcv h0 h t ->
     synced v view rcv h0 h (told t (match u with Mod o => put (o_name o) o (t_data t) | Del o => del (o_name o) (t_data t) end) u)).
  { intros h t u S E. destruct (S E) as [Hv L]. unfold told. cbn [t_version t_queue t_data]. split; [lia|]. intros n.
    rewrite app_assoc, fold_left_app. cbn [fold_left]. set (vw := fold_left _ _ _) in *. unfold follow. cbn [fst snd].
    apply Z.leb_le in Hv. rewrite Hv. destruct u; rewrite ?lookup_put, ?lookup_del, L; reflexivity. }
  apply (exec_each (synced v view rcv h0) (length (y_heap s))) with (p := prog_of owner a) (r := r); auto.
  - intros h k d Hl E. lia.
  - intros h t n o S <-. exact (F h t (Mod o) S).
  - intros h t n o S <-. exact (F h t (Del o) S).
  - apply blocks_of.
Qed.
Lemma turns_synced owner h0 s l s' : turns owner any_op h0 s l s' -> forall v view rcv t, good s -> nth_error (y_heap s) h0 = Some t ->
  each (synced v view rcv h0) s ->
  good s' /\ each (synced v view (rcv ++ l) h0) s' /\ exists t', nth_error (y_heap s') h0 = Some t' /\ t_kind t' = t_kind t.
Proof.
  induction 1 as [s|s a s1 r l s2 X _ _ IH|s h' k v0 d x q l s2 E _ IH]; intros v view rcv t G Et A.
  - rewrite app_nil_r. split; [exact G|]. split; [exact A|eauto].
  - destruct (exec_synced owner v view rcv h0 a s s1 r G (ex_intro _ t Et) A X) as [G1 [A1 K1]].
    destruct (K1 h0 t Et) as [t1 [Et1 Kt]]. destruct (IH v view rcv t1 G1 Et1 A1) as [G2 [A2 [t2 [Et2 Kt2]]]].
    split; [exact G2|]. split; [exact A2|]. exists t2. split; [exact Et2|congruence].
  - pose proof (recv_ok _ _ _ _ _ _ _ G E) as G1. destruct (Nat.eqb_spec h' h0) as [->|Hn].
    + rewrite E in Et. injection Et as <-.
      destruct (IH v view (rcv ++ [x]) (mkStore k v0 d q) G1) as [G2 [A2 [t2 [Et2 Kt2]]]].
      * cbn [y_heap]. rewrite nth_set, Nat.eqb_refl, E. reflexivity.
      * intros h t Eh Hh. subst h. cbn [y_heap] in Eh. rewrite nth_set, Nat.eqb_refl, E in Eh. injection Eh as <-.
        destruct (A _ _ E eq_refl) as [Hv L]. cbn [t_version t_queue t_data] in *. split; [exact Hv|]. intros n. rewrite <- app_assoc. exact (L n).
      * split; [exact G2|]. rewrite <- app_assoc in A2. split; [exact A2|]. exists t2. split; [exact Et2|exact Kt2].
    + destruct (IH v view rcv t G1) as [G2 [A2 R2]].
      * cbn [y_heap]. rewrite nth_set. destruct (Nat.eqb_spec h0 h'); [congruence|exact Et].
      * intros h t1 Eh Hh. subst h. cbn [y_heap] in Eh. rewrite nth_set in Eh. destruct (Nat.eqb_spec h0 h'); [congruence|]. exact (A _ _ Eh eq_refl).
      * auto.
Qed.

Lemma listing_lookup d : (forall n o, In (n, o) d -> o_name o = n) -> forall n, lookup n (listing (map snd d)) = lookup n d.
Proof.
  induction d as [|[k o] d IH]; intros Nm n; [reflexivity|]. cbn [map snd listing fold_right]. rewrite lookup_put.
  rewrite (Nm k o (or_introl eq_refl)). cbn [lookup]. destruct (Nat.eqb n k); [reflexivity|]. apply IH. intros n' o' I. apply Nm. right. exact I.
Qed.
Lemma follow_ext v l : forall a b, (forall n, lookup n a = lookup n b) -> forall n, lookup n (fold_left (follow v) l a) = lookup n (fold_left (follow v) l b).
Proof.
  induction l as [|x l IH]; intros a b H; [exact H|]. cbn [fold_left]. apply IH. intros n. unfold follow.
  destruct (v <=? fst x); [|apply H]. destruct (snd x); rewrite ?lookup_put, ?lookup_del, H; reflexivity.
Qed.
Lemma follow_old v l : Forall (fun x => fst x < v) l -> forall a, fold_left (follow v) l a = a.
Proof.
  induction 1 as [|x l F _ IH]; intros a; [reflexivity|]. cbn [fold_left]. rewrite IH. unfold follow. apply Z.leb_gt in F. rewrite F. reflexivity.
Qed.

Lemma watch_follows owner es m h0 l0 s0 k s1 v objs h l s2 :
  runs calm mach0 es m -> turns owner any_op h0 (c_sys (restart (y_disk (c_sys m)))) l0 s0 ->
  exec (prog_of owner (List k)) s0 = Some (s1, RList v objs) -> lookup k (y_stores s1) = Some h ->
  turns owner any_op h s1 l s2 ->
  forall n, lookup n (fold_left (follow v) (l ++ waiting s2 h) (listing objs)) = visible s2 k n.
Proof.
  intros R T0 X L T n.
  pose proof (good_restart _ _ (runs_good _ _ _ R good0) eq_refl) as Gr.
  assert (Ar : each numbered (c_sys (restart (y_disk (c_sys m))))) by (intros [|i] t E; discriminate).
  destruct (turns_numbered owner h0 _ _ _ T0 Gr Ar) as [G0 A0].
  destruct (exec_numbered owner (List k) _ _ _ G0 A0 X) as [G1 [A1 _]].
  cbn [prog_of] in X. destruct (exec_get_store _ _ _ _ _ G0 X) as [s3 [h1 [t [G3 [D3 [E3 [K3 [F3 [_ X3]]]]]]]]].
  cbn [exec micro_step] in X3. rewrite E3 in X3. cbv beta iota in X3. cbn [exec micro_step] in X3. rewrite E3 in X3. cbn [exec] in X3.
  injection X3 as <- <- <-. pose proof (g_heap _ G3 h1 t E3) as L1. rewrite K3 in L1. assert (h1 = h) by congruence. subst h1.
  assert (A : each (synced (t_version t) (listing (map snd (t_data t))) [] h) s3).
  { intros h2 t2 E2 ->. rewrite E3 in E2. injection E2 as <-. split; [lia|]. intros n1. cbn [app].
    rewrite (follow_old (t_version t) _ (A1 h t E3)). apply listing_lookup. intros n2 o. apply (g_names _ G3 h t n2 o E3). }
  destruct (turns_synced owner h s3 l s2 T _ _ _ t G3 E3 A) as [G2 [A2 [t2 [E2 K2]]]]. cbn [app] in A2.
  unfold waiting. rewrite E2. rewrite (proj2 (A2 h t2 E2 eq_refl) n). rewrite <- K3, <- K2. symmetry. exact (visible_at s2 h t2 n G2 E2).
Qed.

(** * A full queue *)

Lemma heap_keeps s m f s' r h t : micro_step s m f = Some (s', r) -> nth_error (y_heap s) h = Some t -> (max_updates <= length (t_queue t))%nat ->
  exists t', nth_error (y_heap s') h = Some t' /\ t_queue t' = t_queue t.
Proof.
  intros M E F.
  assert (Set_ : forall h1 t1 x, nth_error (y_heap s) h1 = Some t1 -> t_queue x = t_queue t1 -> exists t', nth_error (set_nth h1 x (y_heap s)) h = Some t' /\ t_queue t' = t_queue t).
  { intros h1 t1 x E1 Q. rewrite nth_set. destruct (Nat.eqb_spec h h1) as [->|]; [|eauto]. rewrite E1. exists x. split; [reflexivity|congruence]. }
  destruct m as [k|k|h1 n|h1 o|h1 n|h1|h1 v u|h1|h1]; cbn [micro_step] in M.
  - injection M as <- _. eauto.
  - destruct (load_files (files s k)); injection M as <- _; [|eauto]. cbn [y_heap]. rewrite nth_error_app1; [eauto|]. apply nth_error_Some. congruence.
  - destruct (nth_error (y_heap s) h1); [injection M as <- _; eauto|discriminate].
  - destruct (nth_error (y_heap s) h1) as [t1|] eqn:E1; [|discriminate].
    destruct (lookup (o_name o) (t_data t1)) as [p|].
    + destruct (o_rev o <? o_rev p); [injection M as <- _; eauto|].
      destruct f; injection M as <- _; cbn [y_heap]; (eapply Set_; [exact E1|reflexivity]).
    + destruct f; injection M as <- _; cbn [y_heap]; (eapply Set_; [exact E1|reflexivity]).
  - destruct (nth_error (y_heap s) h1) as [t1|] eqn:E1; [|discriminate].
    destruct (lookup n (t_data t1)); injection M as <- _; [|eauto]. cbn [y_heap]. eapply Set_; [exact E1|reflexivity].
  - destruct (nth_error (y_heap s) h1) as [t1|] eqn:E1; [|discriminate]. injection M as <- _. cbn [y_heap]. eapply Set_; [exact E1|reflexivity].
  - destruct (nth_error (y_heap s) h1) as [t1|] eqn:E1; [|discriminate].
    destruct (Nat.ltb_spec (length (t_queue t1)) max_updates) as [Hl|]; [|discriminate]. injection M as <- _. cbn [y_heap].
    rewrite nth_set. destruct (Nat.eqb_spec h h1) as [->|]; [|eauto]. rewrite E in E1. injection E1 as <-. lia.
  - destruct (nth_error (y_heap s) h1); [injection M as <- _; eauto|discriminate].
  - destruct (nth_error (y_heap s) h1); [injection M as <- _; eauto|discriminate].
Qed.
Lemma full_waits s es s' i h t v u c : runs (nobody_receives h) s es s' ->
  nth_error (c_tasks s) i = Some (Do (Send h v u) c) -> nth_error (y_heap (c_sys s)) h = Some t -> (max_updates <= length (t_queue t))%nat ->
  nth_error (c_tasks s') i = Some (Do (Send h v u) c).
Proof.
  intros R. revert t. induction R as [s|s e s1 es s2 Ok M _ IH]; intros t Ei E F; [exact Ei|].
  destruct e as [p|j f|h1| |j]; cbn [nobody_receives] in Ok; try (exfalso; exact Ok); cbn [mach_step] in M.
  - injection M as <-. apply (IH t); cbn [c_tasks c_sys]; auto. rewrite nth_error_app1; [exact Ei|]. apply nth_error_Some. congruence.
  - destruct (nth_error (c_tasks s) j) as [[r|m k]|] eqn:Ej; try discriminate.
    destruct (micro_step (c_sys s) m f) as [[y r]|] eqn:Mi; [|discriminate]. injection M as <-.
    destruct (heap_keeps _ _ _ _ _ _ _ Mi E F) as [t' [E' Q']]. apply (IH t'); cbn [c_tasks c_sys]; [|exact E'|rewrite Q'; exact F].
    rewrite nth_set. destruct (Nat.eqb_spec i j) as [->|]; [|exact Ei].
    rewrite Ei in Ej. injection Ej as <- <-. cbn [micro_step] in Mi. rewrite E in Mi.
    destruct (Nat.ltb_spec (length (t_queue t)) max_updates); [lia|discriminate].
  - destruct (nth_error (y_heap (c_sys s)) h1) as [[k1 v1 d1 [|x q]]|] eqn:E1; try discriminate. injection M as <-.
    apply (IH t); cbn [c_tasks c_sys y_heap]; [exact Ei| |exact F]. rewrite nth_set. destruct (Nat.eqb_spec h h1); [congruence|exact E].
Qed.

(** * Concrete histories *)
Definition calmb (s : mach) (e : event) : bool :=
  match e with
  | Run i f => match f with Fine => true | _ => false end
               && match nth_error (c_tasks s) i with Some (Do (Load k) _) => match lookup k (y_stores (c_sys s)) with None => true | _ => false end | _ => true end
  | CrashIn _ => false
  | _ => true
  end.
Fixpoint drive (b : mach -> event -> bool) (s : mach) (es : list event) : option mach :=
  match es with
  | [] => Some s
  | e :: t => if b s e then match mach_step s e with Some s' => drive b s' t | None => None end else None
  end.
Lemma calmb_calm s e : calmb s e = true -> calm s e.
Proof.
  destruct e as [p|i f|h| |i]; cbn; intros H; try (split; exact Logic.I); [|discriminate].
  destruct f; try discriminate. split; [reflexivity|]. intros k c Ei. rewrite Ei in H. cbn in H. destruct (lookup k (y_stores (c_sys s))); [discriminate|reflexivity].
Qed.
Lemma drive_runs b (P : mach -> event -> Prop) : (forall s e, b s e = true -> P s e) -> forall es s s', drive b s es = Some s' -> runs P s es s'.
Proof.
  intros H. induction es as [|e es IH]; intros s s' D; cbn [drive] in D; [injection D as <-; constructor|].
  destruct (b s e) eqn:B; [|discriminate]. destruct (mach_step s e) as [s1|] eqn:M; [|discriminate]. econstructor; eauto.
Qed.
Fixpoint steps (i n : nat) : list event := match n with O => [] | S m => Run i Fine :: steps i m end.
