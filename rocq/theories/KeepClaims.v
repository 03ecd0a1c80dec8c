(** The claims of C100 and C101. *)
Require Import List Lia. Import ListNotations.
From Verif Require Import Base KeepModel KeepSpec KeepProofs.

(** * Reading *)
Lemma leads_opened s i : leads s i <-> exists h, opened i s = Some h.
Proof.
  unfold leads, opened. destruct (p_term (y_spu s i)) as [o|]; [|split; [congruence|intros [h H]; discriminate]].
  split; [intros _|congruence]. destruct (p_held (y_spu s i)) as [h|]; eexists; reflexivity.
Qed.
Lemma contains_iff r l : contains r l = true <-> In r (map fst l).
Proof.
  unfold contains. rewrite existsb_exists, in_map_iff. split.
  - intros (e & I & E). apply Z.eqb_eq in E. exists e. auto.
  - intros (e & E & I). exists e. split; [exact I|apply Z.eqb_eq; exact E].
Qed.
Lemma opt_is_iff o x : opt_is o x = true <-> wanted o x.
Proof.
  unfold opt_is, wanted. destruct o as [y|]; [|tauto]. rewrite Z.eqb_eq. split; [intros ->; auto|intros [H|H]; congruence].
Qed.
Lemma fetch_list l s i fr fc : orderly start l s -> leads s i ->
  exists ans, snd (fetch i fr fc s) = Some ans /\ NoDup (map fst ans)
    /\ forall k v, In (k, v) ans <-> holds (y_hist s) k v /\ wanted fr (fst k) /\ wanted fc (snd k) /\ knows s i (fst k).
Proof.
  intros O L. apply leads_opened in L. destruct L as [h L].
  destruct (inv_opened _ _ _ (orderly_inv _ _ _ O inv_start) L) as (_ & N & G).
  unfold fetch. rewrite L. simpl. eexists. split; [reflexivity|]. split; [apply nodup_filter; exact N|].
  intros k v. rewrite filter_In. simpl. rewrite <- (lookup_in _ _ _ N), G, value_holds, !Bool.andb_true_iff, !opt_is_iff, contains_iff.
  unfold knows. tauto.
Qed.
Lemma fetch_other s i fr fc : ~ leads s i -> fetch i fr fc s = (s, None).
Proof.
  intros L. unfold fetch. destruct (opened i s) as [h|] eqn:E; [|reflexivity].
  exfalso. apply L, leads_opened. exists h. exact E.
Qed.
Lemma one_of (t : table) k v : NoDup (map fst t) -> In (k, v) t -> (forall k' w, In (k', w) t -> k' = k) -> t = [(k, v)].
Proof.
  intros N I A. destruct t as [|[x w] t]; [destruct I|]. assert (x = k) by (apply (A x w); left; reflexivity). subst x.
  simpl in N. apply NoDup_cons_iff in N. destruct N as [M N]. destruct t as [|[x u] t].
  - destruct I as [I|[]]. rewrite I. reflexivity.
  - exfalso. apply M. left. apply (A x u). right. left. reflexivity.
Qed.

(** * Writing *)
Lemma put_hist i ok k v s s' b : put_at i ok k v s = Some (s', b) ->
  b = ok /\ y_hist s' = (if ok then [Stored k v] else []) ++ y_hist s.
Proof.
  unfold put_at. destruct (opened i s) as [h|]; [|discriminate]. destruct ok; intros E; injection E as <- <-; split; try reflexivity.
  cbn [note y_hist app]. rewrite write_hist. reflexivity.
Qed.
Lemma put_leads i ok k v s : leads s i -> exists s', put_at i ok k v s = Some (s', ok).
Proof. intros L. apply leads_opened in L. destruct L as [h L]. unfold put_at. rewrite L. destruct ok; eexists; reflexivity. Qed.
Lemma put_sessions i ok k v s s' b : put_at i ok k v s = Some (s', b) -> y_sessions s' = y_sessions s.
Proof.
  unfold put_at. destruct (opened i s) as [h|]; [|discriminate]. destruct ok; intros E; injection E as <- <-; [|reflexivity].
  cbn [note y_sessions]. rewrite write_sessions. reflexivity.
Qed.

Lemma commit_cases n v to ok lost s s' a : commit n v to ok lost s = (s', a) ->
  (y_hist s' = y_hist s /\ forall w, a <> Done w)
  \/ (exists x c, find_session n (y_sessions s) = Some x /\ n_consumer x = Some c
        /\ y_hist s' = Stored (n_replica x, c) v :: y_hist s /\ a = if lost then Failed else Done v).
Proof.
  unfold commit. destruct (find_session n (y_sessions s)) as [x|] eqn:F; [|intros E; injection E as <- <-; left; split; [reflexivity|discriminate]].
  destruct (n_consumer x) as [c|] eqn:C; [|intros E; injection E as <- <-; left; split; [reflexivity|discriminate]].
  assert (P : forall j s1 b, put_at j ok (n_replica x, c) v s = Some (s1, b) -> (s1, if b then (if lost then Failed else Done v) else Failed) = (s', a) ->
     (y_hist s' = y_hist s /\ forall w, a <> Done w)
  \/ (exists x0 c0, Some x = Some x0 /\ n_consumer x0 = Some c0
        /\ y_hist s' = Stored (n_replica x0, c0) v :: y_hist s /\ a = if lost then Failed else Done v)).
  { intros j s1 b P E. destruct (put_hist _ _ _ _ _ _ _ P) as [-> H]. injection E as <- <-. destruct ok.
    - right. exists x, c. auto.
    - left. split; [exact H|discriminate]. }
  destruct (p_term (y_spu s (n_spu x))).
  - destruct (put_at (n_spu x) ok (n_replica x, c) v s) as [[s1 [|]]|] eqn:Q; intros E.
    + exact (P _ _ _ Q E).
    + exact (P _ _ _ Q E).
    + injection E as <- <-. left. split; [reflexivity|discriminate].
  - destruct to as [j|]; [|intros E; injection E as <- <-; left; split; [reflexivity|discriminate]].
    destruct (put_at j ok (n_replica x, c) v s) as [[s1 [|]]|] eqn:Q; intros E.
    + exact (P _ _ _ Q E).
    + exact (P _ _ _ Q E).
    + injection E as <- <-. left. split; [reflexivity|discriminate].
Qed.
Lemma commit_done n v to ok lost s s' w : commit n v to ok lost s = (s', Done w) ->
  w = v /\ exists x c, find_session n (y_sessions s) = Some x /\ n_consumer x = Some c /\ y_hist s' = Stored (n_replica x, c) v :: y_hist s.
Proof.
  intros E. destruct (commit_cases _ _ _ _ _ _ _ _ E) as [[_ A]|(x & c & F & C & H & A)]; [destruct (A w eq_refl)|].
  destruct lost; [discriminate|]. injection A as ->. split; [reflexivity|]. exists x, c. auto.
Qed.
Lemma commit_refused n v to ok s s' a : commit n v to ok false s = (s', a) -> (forall w, a <> Done w) -> y_hist s' = y_hist s.
Proof.
  intros E N. destruct (commit_cases _ _ _ _ _ _ _ _ E) as [[H _]|(x & c & F & C & H & A)]; [exact H|]. destruct (N v A).
Qed.
(** A commit reaches the leader, whichever SPU the stream is at *)
Lemma commit_reaches n v to s x c : find_session n (y_sessions s) = Some x -> n_consumer x = Some c ->
  leads s (n_spu x) \/ (exists j, to = Some j /\ leads s j) -> snd (commit n v to true false s) = Done v.
Proof.
  intros F C L. unfold commit. rewrite F, C. destruct (p_term (y_spu s (n_spu x))) eqn:T.
  - destruct (put_leads (n_spu x) true (n_replica x, c) v s) as [s' E]; [unfold leads; congruence|]. rewrite E. reflexivity.
  - destruct L as [L|(j & -> & L)]; [unfold leads in L; congruence|].
    destruct (put_leads j true (n_replica x, c) v s L) as [s' E]. rewrite E. reflexivity.
Qed.
Lemma commit_unreached n v to ok lost s x : find_session n (y_sessions s) = Some x -> ~ leads s (n_spu x) ->
  (forall j, to = Some j -> ~ leads s j) -> fst (commit n v to ok lost s) = s /\ forall w, snd (commit n v to ok lost s) <> Done w.
Proof.
  intros F L T. unfold commit. rewrite F. destruct (n_consumer x) as [c|]; [|split; [reflexivity|discriminate]].
  destruct (p_term (y_spu s (n_spu x))) eqn:P; [exfalso; apply L; unfold leads; congruence|].
  destruct to as [j|]; [|split; [reflexivity|discriminate]].
  unfold put_at. destruct (opened j s) as [h|] eqn:O; [exfalso; apply (T j eq_refl), leads_opened; exists h; exact O|]. split; [reflexivity|discriminate].
Qed.
Lemma remove_cases i ok lost k s s' a : remove i ok lost k s = (s', a) ->
  (y_hist s' = y_hist s /\ forall w, a <> Done w) \/ (leads s i /\ y_hist s' = Removed k :: y_hist s /\ a = if lost then Failed else Done 0).
Proof.
  unfold remove, delete_at. destruct (opened i s) as [h|] eqn:O; [|intros E; injection E as <- <-; left; split; [reflexivity|discriminate]].
  destruct ok; intros E; injection E as <- <-.
  - right. split; [apply leads_opened; exists h; exact O|]. split; [|reflexivity]. cbn [note y_hist]. rewrite write_hist. reflexivity.
  - left. split; [reflexivity|discriminate].
Qed.
Lemma remove_done i lost ok k s s' w : remove i ok lost k s = (s', Done w) -> y_hist s' = Removed k :: y_hist s.
Proof. intros E. destruct (remove_cases _ _ _ _ _ _ _ E) as [[_ A]|(_ & H & _)]; [destruct (A w eq_refl)|exact H]. Qed.
Lemma remove_reaches i k s : leads s i -> snd (remove i true false k s) = Done 0.
Proof. intros L. apply leads_opened in L. destruct L as [h L]. unfold remove, delete_at. rewrite L. reflexivity. Qed.

(** * Messages *)
Lemma drop_hist i n r s : exists a, y_hist (drop_at i n r s) = a ++ y_hist s /\ Forall (fun e => e = Gone r) a.
Proof.
  assert (one : forall h t l, exists a, y_hist (note (Gone r) (write i h l (hold i t s))) = a ++ y_hist s /\ Forall (fun e => e = Gone r) a).
  { intros h t l. exists [Gone r]. split; [|repeat constructor]. cbn [note y_hist app]. rewrite write_hist. reflexivity. }
  unfold drop_at. destruct (opened i s) as [h|]; [|exists []; split; [reflexivity|constructor]].
  destruct n as [m|]; [|apply one]. destruct (Nat.ltb m _); [|apply one].
  exists []. split; [|constructor]. rewrite write_hist. reflexivity.
Qed.
Lemma drop_term i n r s j : p_term (y_spu (drop_at i n r s) j) = p_term (y_spu s j).
Proof.
  unfold drop_at. destruct (opened i s) as [h|]; [|reflexivity].
  destruct n as [m|]; [destruct (Nat.ltb m _)|]; cbn [note y_spu]; rewrite write_spu; apply hold_term.
Qed.
Lemma dropping_hist i gone : forall s fails, exists a, y_hist (fst (fold_left (dropping i) gone (s, fails))) = a ++ y_hist s
  /\ Forall (fun e => exists r, In r gone /\ e = Gone r) a.
Proof.
  induction gone as [|r gone IH]; intros s fails; simpl; [exists []; split; [reflexivity|constructor]|].
  unfold dropping at 2. simpl. destruct (IH (drop_at i (hd None fails) r s) (tl fails)) as (a & E & F).
  destruct (drop_hist i (hd None fails) r s) as (b & E' & F'). exists (a ++ b). rewrite E, E', app_assoc. split; [reflexivity|].
  apply Forall_app. split; eapply Forall_impl; try eassumption; simpl.
  - intros e (x & I & ->). exists x. auto.
  - intros e ->. exists r. auto.
Qed.
Lemma dropping_all i gone : forall s fails, leads s i -> Forall (fun x => x = None) fails ->
  y_hist (fst (fold_left (dropping i) gone (s, fails))) = rev (map Gone gone) ++ y_hist s.
Proof.
  induction gone as [|r gone IH]; intros s fails L F; simpl; [reflexivity|].
  unfold dropping at 2. simpl. assert (E : hd None fails = None) by (destruct F; simpl; auto). rewrite E. rewrite IH.
  - unfold drop_at. apply leads_opened in L. destruct L as [h L]. rewrite L. cbn [note y_hist]. rewrite write_hist, <- app_assoc. reflexivity.
  - unfold leads. rewrite drop_term. exact L.
  - destruct F; simpl; auto.
Qed.
Lemma dropping_none i gone : forall s fails, ~ leads s i -> y_hist (fst (fold_left (dropping i) gone (s, fails))) = y_hist s.
Proof.
  induction gone as [|r gone IH]; intros s fails L; simpl; [reflexivity|]. unfold dropping at 2. simpl. rewrite IH.
  - unfold drop_at. destruct (opened i s) as [h|] eqn:O; [|reflexivity]. exfalso. apply L, leads_opened. exists h. exact O.
  - unfold leads. rewrite drop_term. exact L.
Qed.
Lemma value_gone l h k : In (fst k) l -> value (rev (map Gone l) ++ h) k = None.
Proof.
  intros I. assert (H : forall a, (exists r, In (Gone r) a /\ r = fst k) -> Forall (fun e => exists r, e = Gone r) a -> value (a ++ h) k = None).
  { induction a as [|e a IH]; intros (r & J & ->) F; [destruct J|]. simpl. inversion F as [|x y (q & ->) F']. subst.
    destruct (Z.eqb_spec q (fst k)) as [->|N]; [reflexivity|]. apply IH; [|exact F']. destruct J as [J|J]; [congruence|]. exists (fst k). auto. }
  apply H.
  - exists (fst k). split; [|reflexivity]. apply -> in_rev. apply in_map. exact I.
  - apply Forall_forall. intros e E. apply in_rev in E. apply in_map_iff in E. destruct E as (r & <- & _). exists r. reflexivity.
Qed.

Lemma find_spec_some r st : find_spec r st <> None <-> In r (map fst st).
Proof.
  induction st as [|[x y] st IH]; simpl; [tauto|]. destruct (Z.eqb_spec x r) as [->|N]; [split; [auto|discriminate]|]. rewrite IH. tauto.
Qed.
Lemma find_erase_spec r x st : x <> r -> find_spec r (erase_spec x st) = find_spec r st.
Proof.
  intros N. induction st as [|[z y] st IH]; simpl; [reflexivity|]. destruct (Z.eqb_spec z x) as [->|M]; simpl.
  - destruct (Z.eqb_spec x r); [contradiction|exact IH].
  - destruct (Z.eqb_spec z r); [reflexivity|exact IH].
Qed.
Lemma find_update r x y st : x <> r -> find_spec r (fst (update x y st)) = find_spec r st.
Proof. intros N. simpl. destruct (Z.eqb_spec x r); [contradiction|]. apply find_erase_spec. exact N. Qed.
Lemma update_gone r x y st : In r (snd (update x y st)) -> r = x /\ r_deleted y = true.
Proof.
  simpl. destruct (find_spec x st) as [z|]; [destruct (rspec_eq z y); [intros []|]|]; (destruct (r_deleted y); intros H; [destruct H as [H|[]]; auto|destruct H]).
Qed.
Lemma rspec_eq_iff a b : rspec_eq a b = true -> a = b.
Proof.
  destruct a, b. unfold rspec_eq. simpl. intros H. apply Bool.andb_true_iff in H. destruct H as [A B].
  apply Bool.eqb_prop in A. apply Z.eqb_eq in B. subst. reflexivity.
Qed.
Lemma update_marked r y st : r_deleted y = true -> find_spec r st <> Some y -> In r (snd (update r y st)).
Proof.
  intros D N. simpl. rewrite D. destruct (find_spec r st) as [z|]; [|left; reflexivity].
  destruct (rspec_eq z y) eqn:E; [apply rspec_eq_iff in E; congruence|left; reflexivity].
Qed.
Lemma updates_app a : forall b st, snd (updates (a ++ b) st) = snd (updates a st) ++ snd (updates b (fst (updates a st))).
Proof.
  induction a as [|[r y] a IH]; intros b st; cbn [app updates]; [reflexivity|]. destruct (update r y st) as [st1 d1].
  specialize (IH b st1). destruct (updates (a ++ b) st1) as [st2 d2]. destruct (updates a st1) as [st3 d3]. simpl in *. rewrite IH, app_assoc. reflexivity.
Qed.
Lemma updates_find r a : forall st, ~ In r (map fst a) -> find_spec r (fst (updates a st)) = find_spec r st.
Proof.
  induction a as [|[x y] a IH]; intros st N; cbn [updates]; [reflexivity|]. simpl in N.
  pose proof (find_update r x y st ltac:(tauto)) as F. destruct (update x y st) as [st1 d1].
  specialize (IH st1 ltac:(tauto)). destruct (updates a st1) as [st2 d2]. simpl in *. congruence.
Qed.
Lemma updates_gone r l : forall st, In r (snd (updates l st)) -> exists y, In (r, y) l /\ r_deleted y = true.
Proof.
  induction l as [|[x y] l IH]; intros st; cbn [updates]; [intros []|]. pose proof (update_gone r x y st) as U.
  destruct (update x y st) as [st1 d1]. specialize (IH st1). destruct (updates l st1) as [st2 d2]. simpl in *. intros I.
  apply in_app_iff in I. destruct I as [I|I].
  - destruct (U I) as [-> D]. exists y. auto.
  - destruct (IH I) as (z & J & D). exists z. auto.
Qed.
Lemma changes_app a : forall b st, snd (changes (a ++ b) st) = snd (changes a st) ++ snd (changes b (fst (changes a st))).
Proof.
  induction a as [|[[|] [r y]] a IH]; intros b st; cbn [app changes]; [reflexivity| |].
  - destruct (update r y st) as [st1 d1]. specialize (IH b st1). destruct (changes (a ++ b) st1) as [st2 d2]. destruct (changes a st1) as [st3 d3].
    simpl in *. rewrite IH, app_assoc. reflexivity.
  - specialize (IH b (erase_spec r st)). destruct (changes (a ++ b) (erase_spec r st)) as [st2 d2]. destruct (changes a (erase_spec r st)) as [st3 d3].
    simpl in *. rewrite IH, app_assoc. reflexivity.
Qed.
Lemma changes_find r a : forall st, ~ In r (map (fun c => fst (snd c)) a) -> find_spec r (fst (changes a st)) = find_spec r st.
Proof.
  induction a as [|[[|] [x y]] a IH]; intros st N; cbn [changes]; [reflexivity| |]; simpl in N.
  - pose proof (find_update r x y st ltac:(tauto)) as F. destruct (update x y st) as [st1 d1].
    specialize (IH st1 ltac:(tauto)). destruct (changes a st1) as [st2 d2]. simpl in *. congruence.
  - pose proof (find_erase_spec r x st ltac:(tauto)) as F. specialize (IH (erase_spec x st) ltac:(tauto)).
    destruct (changes a (erase_spec x st)) as [st2 d2]. simpl in *. congruence.
Qed.
Lemma changes_gone r l : forall st, In r (snd (changes l st)) -> exists u y, In (u, (r, y)) l /\ (u = false \/ r_deleted y = true).
Proof.
  induction l as [|[[|] [x y]] l IH]; intros st; cbn [changes]; [intros []| |].
  - pose proof (update_gone r x y st) as U. destruct (update x y st) as [st1 d1]. specialize (IH st1). destruct (changes l st1) as [st2 d2].
    simpl in *. intros I. apply in_app_iff in I. destruct I as [I|I].
    + destruct (U I) as [-> D]. exists true, y. auto.
    + destruct (IH I) as (u & z & J & D). exists u, z. auto.
  - specialize (IH (erase_spec x st)). destruct (changes l (erase_spec x st)) as [st2 d2]. simpl in *. intros I. apply in_app_iff in I. destruct I as [I|I].
    + destruct (find_spec x st); [destruct I as [Q|[]]; subst; exists false, y; auto|destruct I].
    + destruct (IH I) as (u & z & J & D). exists u, z. auto.
Qed.
Lemma sync_snd l st : snd (sync_all l st) = snd (updates l st) ++ filter (fun r => negb (contains r l)) (map fst st).
Proof. unfold sync_all. destruct (updates l st). reflexivity. Qed.
Lemma all_nonempty l st : l <> [] -> apply_message (All l) st = sync_all l st.
Proof. destruct l; [congruence|reflexivity]. Qed.

Lemma told_in st r m : told_gone st r m -> In r (snd (apply_message m st)).
Proof.
  intros [l NE I N|a y b N D F|a y b N I|a y b N D F].
  - rewrite (all_nonempty _ _ NE), sync_snd. apply in_app_iff. right. apply filter_In. split; [exact I|].
    destruct (contains r l) eqn:C; [apply contains_iff in C; contradiction|reflexivity].
  - rewrite all_nonempty by (intros H; apply app_eq_nil in H; destruct H; discriminate). rewrite sync_snd, updates_app, !in_app_iff. left. right.
    pose proof (updates_find r a st N) as E. cbn [updates]. pose proof (update_marked r y (fst (updates a st)) D ltac:(congruence)) as U.
    destruct (update r y (fst (updates a st))) as [st1 d1]. destruct (updates b st1) as [st2 d2]. simpl in *. apply in_app_iff. left. exact U.
  - cbn [apply_message]. rewrite changes_app, in_app_iff. right. pose proof (changes_find r a st N) as E. cbn [changes]. rewrite E.
    apply find_spec_some in I. destruct (find_spec r st); [|congruence]. destruct (changes b _) as [st2 d2]. left. reflexivity.
  - cbn [apply_message]. rewrite changes_app, in_app_iff. right. pose proof (changes_find r a st N) as E. cbn [changes].
    pose proof (update_marked r y (fst (changes a st)) D ltac:(congruence)) as U.
    destruct (update r y (fst (changes a st))) as [st1 d1]. destruct (changes b st1) as [st2 d2]. simpl in *. apply in_app_iff. left. exact U.
Qed.
Lemma silent_out st r m : silent r m -> ~ In r (snd (apply_message m st)).
Proof.
  destruct m as [l|l]; simpl; intros S I.
  - destruct l as [|e l']; [exact I|]. destruct S as [S|[S D]]; [discriminate|]. cbn [apply_message] in I. rewrite sync_snd in I. apply in_app_iff in I. destruct I as [I|I].
    + destruct (updates_gone _ _ _ I) as (y & J & E). rewrite (D y J) in E. discriminate.
    + apply filter_In in I. destruct I as [_ I]. apply (proj2 (contains_iff r (e :: l'))) in S. rewrite S in I. discriminate.
  - destruct (changes_gone _ _ _ I) as (u & y & J & E). destruct (S u y J) as [-> D]. rewrite D in E. destruct E; discriminate.
Qed.

(** After the leader was told that a replica is gone, none of its offsets is left *)
Lemma gone_none s i m r k fails v : leads s i -> told_gone (p_store (y_spu s i)) r m -> Forall (fun x => x = None) fails -> fst k = r ->
  ~ holds (y_hist (receive i m fails s)) k v.
Proof.
  intros L T F K H. apply value_holds in H. rewrite receive_eq in H. rewrite dropping_all in H; [|unfold leads; rewrite set_same; exact L|exact F].
  rewrite value_gone in H; [discriminate|]. rewrite K. apply told_in. exact T.
Qed.
Lemma gone_fetch l s i m r fails fr fc : orderly start l s -> leads s i -> told_gone (p_store (y_spu s i)) r m -> Forall (fun x => x = None) fails ->
  forall k v ans, snd (fetch i fr fc (receive i m fails s)) = Some ans -> In (k, v) ans -> fst k <> r.
Proof.
  intros O L T F k v ans E I K.
  assert (O' : orderly start (l ++ [Receive i m fails]) (receive i m fails s)).
  { clear -O F. induction O as [s|s m' s1 l s2 C E O IH]; simpl.
    - eapply orderly_step; [exact F|reflexivity|constructor].
    - eapply orderly_step; [exact C|exact E|exact IH]. }
  assert (L' : leads (receive i m fails s) i).
  { rewrite receive_eq. unfold leads. assert (H : forall g s0 f, p_term (y_spu (fst (fold_left (dropping i) g (s0, f))) i) = p_term (y_spu s0 i)).
    { induction g as [|r' g IH]; intros s0 f; simpl; [reflexivity|]. unfold dropping at 2. simpl. rewrite IH. apply drop_term. }
    rewrite H, set_same. exact L. }
  destruct (fetch_list _ _ _ fr fc O' L') as (ans' & E' & _ & A). rewrite E in E'. injection E' as <-.
  apply A in I. destruct I as [I _]. exact (gone_none _ _ _ _ _ _ _ L T F K I).
Qed.
Lemma silent_keeps s i m fails k v : silent (fst k) m -> (holds (y_hist (receive i m fails s)) k v <-> holds (y_hist s) k v).
Proof.
  intros S. rewrite <- !value_holds, receive_eq.
  destruct (dropping_hist i (snd (apply_message m (p_store (y_spu s i))))
     (set_spu i (mkSpu (fst (apply_message m (p_store (y_spu s i)))) (p_term (y_spu s i)) (p_held (y_spu s i))) s) fails) as (a & E & F).
  rewrite E, value_skip; [reflexivity|]. eapply Forall_impl; [|exact F]. simpl. intros e (r & I & ->) A. simpl in A. subst r. exact (silent_out _ _ _ S I).
Qed.
Lemma other_keeps s i m fails : ~ leads s i -> y_hist (receive i m fails s) = y_hist s.
Proof. intros L. rewrite receive_eq, dropping_none; [reflexivity|]. unfold leads. rewrite set_same. exact L. Qed.

(** * Runs *)
Lemma step_hist s m s' : step s m = Some s' -> exists a, y_hist s' = a ++ y_hist s
  /\ forall e k, In e a -> about e k ->
       (exists n v to ok lost x, m = Commit n v to ok lost /\ find_session n (y_sessions s) = Some x /\ n_replica x = fst k /\ n_consumer x = Some (snd k))
       \/ (exists i ok lost, m = Remove i ok lost k) \/ (exists i m' f, m = Receive i m' f /\ ~ silent (fst k) m' /\ leads s i).
Proof.
  assert (none : forall s'', y_hist s'' = y_hist s -> exists a, y_hist s'' = a ++ y_hist s /\ forall e k, In e a -> about e k ->
       (exists n v to ok lost x, m = Commit n v to ok lost /\ find_session n (y_sessions s) = Some x /\ n_replica x = fst k /\ n_consumer x = Some (snd k))
       \/ (exists i ok lost, m = Remove i ok lost k) \/ (exists i m' f, m = Receive i m' f /\ ~ silent (fst k) m' /\ leads s i)).
  { intros s'' H. exists []. split; [exact H|intros e k []]. }
  intros E. destruct m as [n i r c|n|n v to ok lost|i ok lost k|i a b|i m fails|i|i]; simpl in E.
  - destruct (find_session n (y_sessions s)); [discriminate|]. injection E as <-. apply none. reflexivity.
  - injection E as <-. apply none. reflexivity.
  - injection E as <-. destruct (commit n v to ok lost s) as [s' a] eqn:C. simpl.
    destruct (commit_cases _ _ _ _ _ _ _ _ C) as [[H _]|(x & c & F & K & H & _)]; [apply none; exact H|].
    exists [Stored (n_replica x, c) v]. split; [exact H|]. intros e k [<-|[]] A. simpl in A. subst k. left. exists n, v, to, ok, lost, x. auto.
  - injection E as <-. destruct (remove i ok lost k s) as [s' a] eqn:C. simpl.
    destruct (remove_cases _ _ _ _ _ _ _ C) as [[H _]|(_ & H & _)]; [apply none; exact H|].
    exists [Removed k]. split; [exact H|]. intros e k' [<-|[]] A. simpl in A. subst k'. right. left. exists i, ok, lost. reflexivity.
  - injection E as <-. apply none. unfold fetch. destruct (opened i s); reflexivity.
  - injection E as <-. destruct (p_term (y_spu s i)) eqn:T.
    + rewrite receive_eq. match goal with |- context [fold_left (dropping i) ?g (?s0, fails)] => destruct (dropping_hist i g s0 fails) as (a & H & F) end.
      exists a. split; [exact H|]. intros e k I A. rewrite Forall_forall in F. destruct (F e I) as (r & J & ->). simpl in A. subst r.
      right. right. exists i, m, fails. split; [reflexivity|]. split; [|unfold leads; congruence]. intros S. exact (silent_out _ _ _ S J).
    + apply none. apply other_keeps. unfold leads. congruence.
  - destruct (p_term (y_spu s i)); [discriminate|]. injection E as <-. apply none. reflexivity.
  - injection E as <-. apply none. reflexivity.
Qed.
Lemma next_fetch l s1 n v to ok lost s2 w x c l2 s3 a i :
  orderly start l s1 -> find_session n (y_sessions s1) = Some x -> n_consumer x = Some c ->
  commit n v to ok lost s1 = (s2, Done w) ->
  orderly s2 l2 s3 -> y_hist s3 = a ++ y_hist s2 -> Forall (fun e => ~ about e (n_replica x, c)) a ->
  leads s3 i -> knows s3 i (n_replica x) -> snd (fetch i (Some (n_replica x)) (Some c) s3) = Some [((n_replica x, c), v)].
Proof.
  intros O F C E O2 H A L K.
  assert (O3 : orderly start (l ++ Commit n v to ok lost :: l2) s3).
  { clear -O E O2. induction O as [s|s m s1 l s4 C' E' O IH]; simpl.
    - eapply orderly_step; [exact Logic.I| |exact O2]. simpl. rewrite E. reflexivity.
    - eapply orderly_step; [exact C'|exact E'|apply IH; exact E]. }
  destruct (fetch_list _ _ _ (Some (n_replica x)) (Some c) O3 L) as (ans & Q & N & W). rewrite Q. f_equal.
  destruct (commit_done _ _ _ _ _ _ _ _ E) as (_ & x' & c' & F' & C' & H2). rewrite F in F'. injection F' as <-. rewrite C in C'. injection C' as <-.
  apply one_of; [exact N| |].
  - apply W. split; [|split; [right; reflexivity|split; [right; reflexivity|exact K]]]. exists a, (y_hist s1). split; [congruence|exact A].
  - intros [r' c'] v' J. apply W in J. destruct J as (_ & [J1|J1] & [J2|J2] & _); try discriminate. simpl in *. congruence.
Qed.

(** * Runs for the examples *)
Definition calmb (s : sys) (m : move) : bool :=
  match m with
  | Lead i => match p_held (y_spu s i) with None => true | Some _ => false end
  | Remove _ ok _ _ => ok
  | Receive _ _ fails => forallb (fun x => match x with None => true | Some _ => false end) fails
  | _ => true
  end.
Lemma calmb_calm s m : calmb s m = true -> calm s m.
Proof.
  destruct m; simpl; try (intros; exact Logic.I); auto.
  - intros H. apply Forall_forall. intros x I. rewrite forallb_forall in H. specialize (H x I). destruct x; [discriminate|reflexivity].
  - destruct (p_held (y_spu s i)); [discriminate|reflexivity].
Qed.
Fixpoint go (s : sys) (l : list move) : option sys :=
  match l with [] => Some s | m :: t => if calmb s m then match step s m with Some s' => go s' t | None => None end else None end.
Lemma go_orderly l : forall s s', go s l = Some s' -> orderly s l s'.
Proof.
  induction l as [|m l IH]; intros s s'; simpl; [intros E; injection E as <-; constructor|].
  destruct (calmb s m) eqn:C; [|discriminate]. destruct (step s m) as [s1|] eqn:E; [|discriminate].
  intros G. eapply orderly_step; [exact (calmb_calm _ _ C)|exact E|exact (IH _ _ G)].
Qed.
Lemma by_go l (P : sys -> Prop) : match go start l with Some s => P s | None => False end -> exists s, orderly start l s /\ P s.
Proof. destruct (go start l) as [s|] eqn:E; [|intros []]. intros H. exists s. split; [apply go_orderly; exact E|exact H]. Qed.
Lemma by_run l (P : sys -> Prop) : match run start l with Some s => P s | None => False end -> exists s, run start l = Some s /\ P s.
Proof. destruct (run start l) as [s|] eqn:E; [|intros []]. intros H. exists s. split; [reflexivity|exact H]. Qed.

Definition up : rspec := mkRspec false 0.
Definition going : rspec := mkRspec true 0.
(** SPU 1 leads; consumer 3 of replica 7, at SPU 2, committed 10, consumer 4 12 *)
Definition ex_moves : list move :=
  [Receive 1 (All [(7, up); (8, up)]) []; Receive 2 (All [(7, up); (8, up)]) []; Lead 1; Open 0 2 7 (Some 3); Open 1 1 7 (Some 4);
   Commit 0 10 (Some 1) true false; Commit 1 12 None true false].
Lemma ex_reached : exists s, orderly start ex_moves s /\ leads s 1 /\ knows s 1 7 /\ holds (y_hist s) (7, 3) 10
  /\ snd (fetch 1 (Some 7) None s) = Some [((7, 4), 12); ((7, 3), 10)] /\ snd (fetch 1 None (Some 3) s) = Some [((7, 3), 10)]
  /\ snd (commit 0 11 (Some 1) true false s) = Done 11 /\ snd (commit 0 11 (Some 2) true false s) = NotLeader.
Proof.
  destruct (by_go ex_moves (fun s => p_term (y_spu s 1) = Some 0 /\ p_store (y_spu s 1) = [(8, up); (7, up)] /\ value (y_hist s) (7, 3) = Some 10
   /\ snd (fetch 1 (Some 7) None s) = Some [((7, 4), 12); ((7, 3), 10)] /\ snd (fetch 1 None (Some 3) s) = Some [((7, 3), 10)]
   /\ snd (commit 0 11 (Some 1) true false s) = Done 11 /\ snd (commit 0 11 (Some 2) true false s) = NotLeader)) as (s & O & A & B & C & D);
   [vm_compute; auto 8|].
  exists s. split; [exact O|]. split; [unfold leads; congruence|]. split; [unfold knows; rewrite B; simpl; auto|]. split; [apply value_holds; exact C|exact D].
Qed.

(** An SPU leads, another one, and the first again: it answers with what it knew. *)
Definition ex_again : list move :=
  [Receive 1 (All [(7, up); (8, up)]) []; Lead 1; Open 0 1 7 (Some 3); Commit 0 10 None true false; Lead 2; Commit 0 20 (Some 2) true false; Lead 1].
Lemma again : exists s, run start ex_again = Some s /\ leads s 1 /\ knows s 1 7 /\ holds (y_hist s) (7, 3) 20
  /\ snd (fetch 1 (Some 7) (Some 3) s) = Some [((7, 3), 10)].
Proof.
  destruct (by_run ex_again (fun s => p_term (y_spu s 1) = Some 2 /\ p_store (y_spu s 1) = [(8, up); (7, up)] /\ value (y_hist s) (7, 3) = Some 20
   /\ snd (fetch 1 (Some 7) (Some 3) s) = Some [((7, 3), 10)])) as (s & O & A & B & C & D); [vm_compute; auto|].
  exists s. split; [exact O|]. split; [unfold leads; congruence|]. split; [unfold knows; rewrite B; simpl; auto|]. split; [apply value_holds; exact C|exact D].
Qed.

(** The stream of a deleted topic commits. *)
Definition ex_before : list move := [Receive 1 (All [(7, up); (8, up)]) []; Lead 1; Open 0 1 7 (Some 3); Commit 0 10 None true false].
Definition ex_deleted : message := Changes [(false, (7, going))].
Definition ex_created : message := Changes [(true, (7, up))].
Lemma late : exists s, orderly start (ex_before ++ [Receive 1 ex_deleted []; Commit 0 11 None true false; Receive 1 ex_created []]) s
  /\ leads s 1 /\ snd (fetch 1 (Some 7) (Some 3) s) = Some [((7, 3), 11)].
Proof.
  destruct (by_go (ex_before ++ [Receive 1 ex_deleted []; Commit 0 11 None true false; Receive 1 ex_created []])
    (fun s => p_term (y_spu s 1) = Some 0 /\ snd (fetch 1 (Some 7) (Some 3) s) = Some [((7, 3), 11)])) as (s & O & A & D); [vm_compute; auto|].
  exists s. split; [exact O|]. split; [unfold leads; congruence|exact D].
Qed.
(** The topic is deleted while the leader is down. *)
Lemma down : exists s, orderly start (ex_before ++ [Restart 1; Lead 1; Receive 1 (All [(8, up)]) []; Receive 1 ex_created []]) s
  /\ leads s 1 /\ snd (fetch 1 (Some 7) (Some 3) s) = Some [((7, 3), 10)].
Proof.
  destruct (by_go (ex_before ++ [Restart 1; Lead 1; Receive 1 (All [(8, up)]) []; Receive 1 ex_created []])
    (fun s => p_term (y_spu s 1) = Some 1 /\ snd (fetch 1 (Some 7) (Some 3) s) = Some [((7, 3), 10)])) as (s & O & A & D); [vm_compute; auto|].
  exists s. split; [exact O|]. split; [unfold leads; congruence|exact D].
Qed.
(** A delete fails. *)
Definition ex_two : list move := ex_before ++ [Open 1 1 7 (Some 4); Commit 1 12 None true false].
Lemma failing : exists s, run start (ex_two ++ [Receive 1 ex_deleted [Some 0%nat]; Receive 1 ex_created []]) = Some s
  /\ leads s 1 /\ snd (fetch 1 (Some 7) (Some 3) s) = Some [((7, 3), 10)].
Proof.
  destruct (by_run (ex_two ++ [Receive 1 ex_deleted [Some 0%nat]; Receive 1 ex_created []])
    (fun s => p_term (y_spu s 1) = Some 0 /\ snd (fetch 1 (Some 7) (Some 3) s) = Some [((7, 3), 10)])) as (s & O & A & D); [vm_compute; auto|].
  exists s. split; [exact O|]. split; [unfold leads; congruence|exact D].
Qed.

(** * Streams that ended *)
Definition ids (s : sys) : list Z := map fst (y_sessions s).
Lemma find_none n l : ~ In n (map fst l) <-> find_session n l = None.
Proof.
  induction l as [|[x y] l IH]; simpl; [tauto|]. destruct (Z.eqb_spec x n) as [->|D]; [split; [intros H; exfalso; apply H; auto|discriminate]|].
  rewrite <- IH. tauto.
Qed.
Lemma filter_ids (f : Z * session -> bool) l n : In n (map fst (filter f l)) -> In n (map fst l).
Proof. intros H. apply in_map_iff in H. destruct H as (e & E & I). apply filter_In in I. rewrite <- E. apply in_map. tauto. Qed.
Lemma nodup_filter (f : Z * session -> bool) l : NoDup (map fst l) -> NoDup (map fst (filter f l)).
Proof.
  induction l as [|e l IH]; simpl; intros N; [constructor|]. apply NoDup_cons_iff in N. destruct N as [A B]. destruct (f e); simpl; [|auto].
  constructor; [|auto]. intros H. apply A. apply filter_ids in H. exact H.
Qed.
Lemma write_sess i h l s : y_sessions (write i h l s) = y_sessions s.
Proof. unfold write. destruct (current i h s); reflexivity. Qed.
Lemma put_sess i ok k v s s' b : put_at i ok k v s = Some (s', b) -> y_sessions s' = y_sessions s.
Proof. unfold put_at. destruct (opened i s); [|discriminate]. destruct ok; intros H; injection H as <- <-; simpl; rewrite ?write_sess; reflexivity. Qed.
Lemma delete_sess i ok k s s' b : delete_at i ok k s = Some (s', b) -> y_sessions s' = y_sessions s.
Proof. unfold delete_at. destruct (opened i s); [|discriminate]. destruct ok; intros H; injection H as <- <-; simpl; rewrite ?write_sess; reflexivity. Qed.
Lemma drop_sess i n r s : y_sessions (drop_at i n r s) = y_sessions s.
Proof.
  unfold drop_at. destruct (opened i s); [|reflexivity]. destruct n as [m|]; [destruct (Nat.ltb m _)|]; simpl; rewrite ?write_sess; reflexivity.
Qed.
Lemma drops_sess i gone : forall s f,
  y_sessions (fst (fold_left (fun (a : sys * list (option nat)) r => (drop_at i (hd None (snd a)) r (fst a), tl (snd a))) gone (s, f))) = y_sessions s.
Proof. induction gone as [|r gone IH]; intros s f; simpl; [reflexivity|]. rewrite IH. apply drop_sess. Qed.
Lemma commit_sess n v to ok lost s : y_sessions (fst (commit n v to ok lost s)) = y_sessions s.
Proof.
  unfold commit. destruct (find_session n (y_sessions s)) as [x|]; [|reflexivity]. destruct (n_consumer x) as [c|]; [|reflexivity].
  destruct (p_term _).
  - destruct (put_at _ ok _ v s) as [[s' []]|] eqn:E; simpl; try reflexivity; eapply put_sess; exact E.
  - destruct to as [j|]; [|reflexivity]. destruct (put_at j ok _ v s) as [[s' []]|] eqn:E; simpl; try reflexivity; eapply put_sess; exact E.
Qed.
Lemma step_ids s m s' : step s m = Some s' -> NoDup (ids s) -> NoDup (ids s').
Proof.
  unfold ids. destruct m as [n i r c|n|n v to ok lost|i ok lost k|i a b|i m fails|i|i]; intros H N; simpl in H.
  - destruct (find_session n (y_sessions s)) eqn:E; [discriminate|]. injection H as <-. simpl. constructor; [apply find_none, E|exact N].
  - injection H as <-. simpl. apply nodup_filter, N.
  - injection H as <-. rewrite commit_sess. exact N.
  - injection H as <-. unfold remove. destruct (delete_at i ok k s) as [[x []]|] eqn:E; simpl; try exact N; rewrite (delete_sess _ _ _ _ _ _ E); exact N.
  - injection H as <-. unfold fetch. destruct (opened i s); exact N.
  - injection H as <-. unfold receive. destruct (apply_message m _) as [st gone]. rewrite drops_sess. exact N.
  - destruct (p_term (y_spu s i)); [discriminate|]. injection H as <-. exact N.
  - injection H as <-. simpl. apply nodup_filter, N.
Qed.
Lemma run_ids l : forall s s', run s l = Some s' -> NoDup (ids s) -> NoDup (ids s').
Proof.
  induction l as [|m l IH]; intros s s' H N; simpl in H; [injection H as <-; exact N|].
  destruct (step s m) as [t|] eqn:E; [|discriminate]. exact (IH _ _ H (step_ids _ _ _ E N)).
Qed.
Lemma closed s n s' v to ok lost : step s (Close n) = Some s' -> commit n v to ok lost s' = (s', NoSession).
Proof.
  intros H. simpl in H. injection H as <-. unfold commit. cbn [y_sessions].
  replace (find_session n _) with (@None session); [reflexivity|]. symmetry. apply find_none. intros I. apply in_map_iff in I.
  destruct I as (e & E & I). apply filter_In in I. destruct I as [_ I]. rewrite E, Z.eqb_refl in I. discriminate.
Qed.
Lemma find_in n x l : find_session n l = Some x -> In (n, x) l.
Proof. induction l as [|[a b] l IH]; simpl; [discriminate|]. destruct (Z.eqb_spec a n) as [->|]; [intros H; injection H as ->; auto|auto]. Qed.
Lemma nodup_same (l : list (Z * session)) n x y : NoDup (map fst l) -> In (n, x) l -> In (n, y) l -> x = y.
Proof.
  induction l as [|e l IH]; simpl; intros N A B; [destruct A|]. apply NoDup_cons_iff in N. destruct N as [N1 N2].
  destruct A as [->|A], B as [B|B]; [congruence| | |auto].
  - exfalso. apply N1. apply (in_map fst) in B. exact B.
  - subst e. exfalso. apply N1. apply (in_map fst) in A. exact A.
Qed.
Lemma ended l s n x s' v to ok lost : run start l = Some s -> find_session n (y_sessions s) = Some x -> step s (Restart (n_spu x)) = Some s' ->
  commit n v to ok lost s' = (s', NoSession).
Proof.
  intros R F H. simpl in H. injection H as <-. unfold commit. cbn [y_sessions].
  replace (find_session n (filter _ _)) with (@None session); [reflexivity|]. symmetry. apply find_none. intros I. apply in_map_iff in I.
  destruct I as ([m y] & E & I). simpl in E. subst m. apply filter_In in I. destruct I as [I J]. cbn [snd] in J.
  assert (x = y) by (eapply nodup_same; [exact (run_ids _ _ _ R (NoDup_nil _))|apply find_in, F|exact I]). subst y. rewrite Z.eqb_refl in J. discriminate.
Qed.

(** * Which replicas an SPU knows *)
Lemma hold_store i h s j : p_store (y_spu (hold i h s) j) = p_store (y_spu s j).
Proof. unfold hold, set_spu. simpl. destruct (Z.eqb_spec j i) as [->|]; reflexivity. Qed.
Lemma write_store i h l s j : p_store (y_spu (write i h l s) j) = p_store (y_spu s j).
Proof. unfold write. destruct (current i h s); reflexivity. Qed.
Lemma drop_store i n r s j : p_store (y_spu (drop_at i n r s) j) = p_store (y_spu s j).
Proof.
  unfold drop_at. destruct (opened i s) as [h|]; [|reflexivity]. destruct n as [m|]; [destruct (Nat.ltb m _)|]; simpl;
    rewrite ?write_store, ?hold_store; reflexivity.
Qed.
Lemma drops_store i gone j : forall s f,
  p_store (y_spu (fst (fold_left (fun (a : sys * list (option nat)) r => (drop_at i (hd None (snd a)) r (fst a), tl (snd a))) gone (s, f))) j) = p_store (y_spu s j).
Proof. induction gone as [|r gone IH]; intros s f; simpl; [reflexivity|]. rewrite IH. apply drop_store. Qed.
Lemma received i m fails s : p_store (y_spu (receive i m fails s) i) = fst (apply_message m (p_store (y_spu s i))).
Proof. unfold receive. destruct (apply_message m _) as [st gone]. rewrite drops_store. unfold set_spu. simpl. rewrite Z.eqb_refl. reflexivity. Qed.
Lemma in_erase r q l : In r (map fst (erase_spec q l)) <-> r <> q /\ In r (map fst l).
Proof.
  unfold erase_spec. rewrite !in_map_iff. split.
  - intros (e & E & I). apply filter_In in I. destruct I as [I J]. split; [intros ->; rewrite E, Z.eqb_refl in J; discriminate|]. eauto.
  - intros (N & e & E & I). exists e. split; [exact E|]. apply filter_In. split; [exact I|]. destruct (Z.eqb_spec (fst e) q); [congruence|reflexivity].
Qed.
Lemma in_insert r q y l : In r (map fst (insert_spec q y l)) <-> r = q \/ In r (map fst l).
Proof.
  unfold insert_spec. cbn [map fst In]. rewrite in_erase. destruct (Z.eq_dec r q) as [->|]; [tauto|].
  split; [intros [H|H]; [congruence|tauto]|tauto].
Qed.
Lemma in_updates r l : forall st, In r (map fst (fst (updates l st))) <-> In r (map fst l) \/ In r (map fst st).
Proof.
  induction l as [|[q y] l IH]; intros st; cbn [updates]; [simpl; tauto|]. unfold update at 1. destruct (updates l _) as [st2 d2] eqn:E.
  cbn [fst]. specialize (IH (insert_spec q y st)). rewrite E in IH. cbn [fst] in IH. rewrite IH, in_insert. cbn [map fst In]. split; intros H; intuition auto.
Qed.
Lemma contains_in r l : contains r l = true <-> In r (map fst l).
Proof.
  unfold contains. rewrite existsb_exists, in_map_iff. split; intros (e & A & B); exists e; [apply Z.eqb_eq in B; tauto|].
  split; [exact B|]. apply Z.eqb_eq, A.
Qed.
Lemma knows_all s i l fails r : l <> [] -> (knows (receive i (All l) fails s) i r <-> In r (map fst l)).
Proof.
  intros N. unfold knows. rewrite received. destruct l as [|e l]; [congruence|]. cbn [apply_message]. remember (e :: l) as k.
  unfold sync_all. destruct (updates k (p_store (y_spu s i))) as [st1 d] eqn:E. cbn [fst].
  pose proof (in_updates r k (p_store (y_spu s i))) as U. rewrite E in U. cbn [fst] in U. split.
  - intros H. apply in_map_iff in H. destruct H as (x & F & I). apply filter_In in I. destruct I as [_ I]. apply contains_in in I. congruence.
  - intros H. assert (I : In r (map fst st1)) by (apply U; auto). apply in_map_iff in I. destruct I as (x & F & I).
    apply in_map_iff. exists x. split; [exact F|]. apply filter_In. split; [exact I|]. apply contains_in. congruence.
Qed.
Lemma told_ext r l : forall P Q, (P <-> Q) -> (told r l P <-> told r l Q).
Proof. induction l as [|[u [q y]] l IH]; intros P Q H; simpl; [exact H|]. apply IH. destruct (q =? r); [reflexivity|exact H]. Qed.
Lemma in_changes r l : forall st, In r (map fst (fst (changes l st))) <-> told r l (In r (map fst st)).
Proof.
  induction l as [|[[] [q y]] l IH]; intros st; cbn [changes told].
  - reflexivity.
  - unfold update at 1. destruct (changes l _) as [st2 d2] eqn:E. cbn [fst]. specialize (IH (insert_spec q y st)). rewrite E in IH. cbn [fst] in IH. rewrite IH.
    apply told_ext. rewrite in_insert. destruct (Z.eqb_spec q r) as [->|]; [split; auto|]. split; [intros [H|H]; [congruence|exact H]|tauto].
  - destruct (changes l _) as [st2 d2] eqn:E. cbn [fst]. specialize (IH (erase_spec q st)). rewrite E in IH. cbn [fst] in IH. rewrite IH.
    apply told_ext. rewrite in_erase. destruct (Z.eqb_spec q r) as [->|]; [split; [tauto|discriminate]|]. split; [tauto|]. intros H. split; [congruence|exact H].
Qed.
Lemma knows_changes s i l fails r : knows (receive i (Changes l) fails s) i r <-> told r l (knows s i r).
Proof. unfold knows at 1. rewrite received. cbn [apply_message]. apply in_changes. Qed.
Lemma knows_not s i : forall s', step s (Restart i) = Some s' -> forall r, ~ knows s' i r.
Proof. intros s' H r. simpl in H. injection H as <-. unfold knows. simpl. rewrite Z.eqb_refl. intros []. Qed.
