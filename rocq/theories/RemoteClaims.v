Require Import List Lia. Import ListNotations.
From Verif Require Import Base RemoteModel RemoteSpec RemoteProofs.

(** * C96 *)
Lemma start_inv s g : paired s g -> Inv (y_home s) g (y_done s + pending s) s.
Proof.
  intros (H1 & H2 & H3 & H4). split; [unfold base; auto|]. exists (queue s), []. rewrite app_nil_r. split; [reflexivity|]. split; [constructor|].
  left. unfold stale, pending. lia.
Qed.
Lemma calm_home l : forall s s', Forall calm l -> run s l = Some s' -> y_home s' = y_home s.
Proof.
  induction l as [|m l IH]; cbn [run]; intros s s' F R; [congruence|]. inversion F as [|? ? F1 F2]; subst.
  destruct (step s m) as [s1|] eqn:S; [|discriminate]. rewrite (IH s1 s' F2 R). clear IH R.
  destruct m as [?|?|k a|al|ok| | |o]; try destruct F1; cbn [step] in S.
  - injection S as <-. reflexivity.
  - destruct (y_conn s); [discriminate|]. destruct (y_work s); [discriminate|]. destruct (home_of (y_remote s)); [|discriminate]. injection S as <-. reflexivity.
  - destruct (y_conn s) as [[g [|] q]|]; try discriminate. destruct (negb _); [congruence|]. destruct (get _ _); injection S as <-; reflexivity.
  - injection S as <-. reflexivity.
  - destruct (y_conn s) as [[g b [|x q]]|]; try discriminate. destruct (y_work s); [discriminate|]. injection S as <-. reflexivity.
  - destruct (y_work s) as [[g [|t rest]]|]; [| |discriminate].
    + destruct o; [destruct (home_of (y_remote s))| |]; injection S as <-; reflexivity.
    + destruct (execute (g_id g) t (y_remote s)); destruct o; injection S as <-; reflexivity.
Qed.
Lemma converges s g l s' : paired s g -> Forall calm l -> run s l = Some s' -> y_done s + pending s < y_done s' ->
  in_sync (y_home s') g (y_remote s').
Proof.
  intros P F R D. rewrite (calm_home _ _ _ F R). apply follows_sync; [apply P|].
  apply (Inv_done _ _ _ s' (Inv_run _ _ _ (proj1 P) _ _ _ F (start_inv s g P) R) D).
Qed.

(** Once in sync, always in sync, and nothing is done any more. *)
Definition still (r r' : remote) : Prop :=
  (forall j, option_map t_spec (get j (r_topics r')) = option_map t_spec (get j (r_topics r)))
  /\ forall p, In p (r_parts r) -> In p (r_parts r').
Lemma still_refl r : still r r. Proof. split; auto. Qed.
Lemma still_trans a b c : still a b -> still b c -> still a c.
Proof. intros [A1 A2] [B1 B2]. split; [intros j; rewrite B1; apply A1|auto]. Qed.
Lemma settled_step h g D s m s' : Inv h g D s -> D < y_done s -> calm m -> step s m = Some s' ->
  still (y_remote s) (y_remote s') /\ y_done s <= y_done s'.
Proof.
  intros I L Q S. assert (T : settled h g s).
  { destruct I as (_ & olds & news & _ & _ & [I|[_ [[I _]|I]]]); [|lia|exact I].
    unfold stale in I. pose proof (zlen_pos olds). destruct (y_work s); lia. }
  destruct T as [F W]. destruct m as [?|?|k a|al|ok| | |o]; try destruct Q; cbn [step] in S.
  - injection S as <-. cbn. split; [|lia]. split; [apply reconcile_spec|apply reconcile_parts].
  - destruct (y_conn s); [discriminate|]. destruct (y_work s); [discriminate|]. destruct (home_of (y_remote s)); [|discriminate]. injection S as <-. cbn. split; [apply still_refl|lia].
  - destruct (y_conn s) as [[g' [|] q]|]; try discriminate. destruct (negb _).
    + injection S as <-. split; [apply still_refl|lia].
    + destruct (get _ _); injection S as <-; cbn; (split; [apply still_refl|lia]).
  - injection S as <-. cbn. split; [apply still_refl|lia].
  - destruct (y_conn s) as [[g' b [|x q]]|]; try discriminate. destruct (y_work s); [discriminate|]. injection S as <-. cbn. split; [apply still_refl|lia].
  - destruct W as [W|(ws & U & W)]; rewrite W in S; [discriminate|]. destruct ws as [|w ws]; cbn [map] in S.
    + destruct o; [destruct (home_of (y_remote s))| |]; injection S as <-; cbn; (split; [apply still_refl|lia]).
    + cbn [execute] in S. rewrite (sync_again _ _ _ (proj1 F w (U w (or_introl eq_refl)))) in S.
      destruct o; injection S as <-; cbn; (split; [apply still_refl|lia]).
Qed.
Lemma settled_run h g D : home_ok h -> forall l s s', Inv h g D s -> D < y_done s -> Forall calm l -> run s l = Some s' ->
  still (y_remote s) (y_remote s').
Proof.
  intros K. induction l as [|m l IH]; cbn [run]; intros s s' I L F R; [injection R as <-; apply still_refl|]. inversion F as [|? ? F1 F2]; subst.
  destruct (step s m) as [s1|] eqn:S; [|discriminate]. destruct (settled_step _ _ _ _ _ _ I L F1 S) as [A B].
  apply (still_trans _ (y_remote s1)); [exact A|]. apply IH; [|lia|exact F2|exact R]. exact (Inv_step _ _ _ K _ _ _ F1 I S).
Qed.
Lemma stays s g l s' : paired s g -> in_sync (y_home s) g (y_remote s) -> pending s = 0 -> Forall calm l -> run s l = Some s' ->
  in_sync (y_home s') g (y_remote s') /\ forall k, kept k (y_remote s) (y_remote s').
Proof.
  intros P Y Z F R. assert (I : Inv (y_home s) g (y_done s - 1) s).
  { destruct P as (H1 & H2 & H3 & H4). split; [unfold base; auto|]. exists [], []. unfold pending in Z.
    pose proof (zlen_pos (queue s)). split.
    - destruct (queue s); [reflexivity|]. rewrite zlen_cons' in *. pose proof (zlen_pos l1). destruct (y_work s); lia.
    - split; [constructor|]. right. split; [reflexivity|]. right. split; [apply follows_sync; assumption|]. left. destruct (y_work s); [lia|reflexivity]. }
  pose proof (settled_run _ _ _ (proj1 P) l s s' I ltac:(lia) F R) as [A B]. split.
  - rewrite (calm_home _ _ _ F R). apply follows_sync; [apply P|]. apply (spec_follows _ _ (y_remote s)); [exact A|]. apply follows_sync; [apply P|exact Y].
  - intros k. split; [apply A|]. intros i x. apply B.
Qed.

(** Reaching it. *)
Definition wellmade (m : list wrapper) : Prop := Forall (fun w => exists parts source, sp_replicas (w_spec w) = RHome parts source) m.
Definition doable (t : task) : Prop := match t with TDelete _ => True | TSync w => exists parts source, sp_replicas (w_spec w) = RHome parts source end.
Definition sound (s : sys) : Prop :=
  Forall wellmade (queue s) /\ match y_work s with Some (_, l) => Forall doable l | None => True end.
Lemma exports_wellmade h r : wellmade (exports h r).
Proof. apply Forall_forall. intros w I. exact (exports_home _ _ _ I). Qed.
Lemma plan_doable id r m : wellmade m -> Forall doable (plan id r m).
Proof.
  intros W. unfold plan. apply Forall_app. split; apply Forall_forall; intros t I; apply in_map_iff in I as [x [<- I]]; cbn; auto.
  unfold wellmade in W. rewrite Forall_forall in W. apply W, I.
Qed.
Lemma sound_step s m s' : sound s -> step s m = Some s' -> sound s'.
Proof.
  intros [A B] S. destruct m as [?|?|k a|al|ok| | |o]; cbn [step] in S.
  - injection S as <-. split; assumption.
  - injection S as <-. split; assumption.
  - injection S as <-. split; assumption.
  - destruct (y_conn s); [discriminate|]. destruct (y_work s); [discriminate|]. destruct (home_of (y_remote s)); [|discriminate]. injection S as <-. split; [constructor|exact Logic.I].
  - destruct (y_conn s) as [[g [|] q]|] eqn:C; try discriminate. destruct (negb _); [injection S as <-; split; assumption|].
    unfold queue in A. rewrite C in A. destruct (get _ _); injection S as <-; split; try assumption. cbn.
    apply Forall_app. split; [exact A|]. constructor; [apply exports_wellmade|constructor].
  - injection S as <-. split; [constructor|exact B].
  - destruct (y_conn s) as [[g b [|x q]]|] eqn:C; try discriminate. destruct (y_work s); [discriminate|]. injection S as <-.
    unfold queue in A. rewrite C in A. inversion A; subst. split; [assumption|]. cbn. apply plan_doable. assumption.
  - destruct (y_work s) as [[g [|t rest]]|] eqn:W; [| |discriminate].
    + destruct o; [destruct (home_of (y_remote s))| |]; injection S as <-; (split; [try constructor; exact A|exact Logic.I]).
    + inversion B; subst. destruct (execute (g_id g) t (y_remote s)); destruct o; injection S as <-; (split; [try constructor; exact A|try exact Logic.I; assumption]).
Qed.
Lemma reached_sound s : reached s -> sound s.
Proof.
  intros (s0 & l & C & W & R). assert (S0 : sound s0) by (unfold sound, queue; rewrite C, W; split; [constructor|exact Logic.I]).
  clear C W. revert s0 R S0. induction l as [|m l IH]; cbn [run]; intros s0 R S0; [injection R as <-; exact S0|].
  destruct (step s0 m) as [s1|] eqn:S; [|discriminate]. exact (IH _ R (sound_step _ _ _ S0 S)).
Qed.
Lemma run_app l1 : forall l2 s, run s (l1 ++ l2) = match run s l1 with Some s' => run s' l2 | None => None end.
Proof. induction l1 as [|m l1 IH]; intros l2 s; cbn [app run]; [reflexivity|]. destruct (step s m); [apply IH|reflexivity]. Qed.

Lemma work_all tasks : forall s g, y_work s = Some (g, tasks) -> home_of (y_remote s) <> None -> Forall doable tasks ->
  exists s', run s (repeat (Work Done) (S (length tasks))) = Some s'
    /\ y_done s' = y_done s + 1 /\ y_work s' = None /\ y_conn s' = y_conn s /\ y_home s' = y_home s /\ home_of (y_remote s') = home_of (y_remote s).
Proof.
  induction tasks as [|t tasks IH]; intros s g W Hh F; cbn [length repeat run step]; rewrite W.
  - destruct (home_of (y_remote s)) eqn:E; [|congruence]. eexists. split; [reflexivity|]. cbn. rewrite E. auto.
  - inversion F as [|? ? F1 F2]; subst. assert (X : exists r, execute (g_id g) t (y_remote s) = Some r).
    { destruct t; cbn [execute]; [eauto|apply sync_can; exact F1]. }
    destruct X as [r X]. rewrite X.
    destruct (IH (mkSys (y_home s) r (y_conn s) (Some (g, tasks)) (y_done s)) g eq_refl) as (s' & R & D1 & D2 & D3 & D4 & D5).
    + cbn [y_remote]. unfold home_of in *. rewrite (execute_mirrors _ _ _ _ X). exact Hh.
    + exact F2.
    + exists s'. cbn [repeat] in R. split; [exact R|]. cbn in D1, D3, D4, D5. repeat split; auto. rewrite D5. unfold home_of. rewrite (execute_mirrors _ _ _ _ X). reflexivity.
Qed.
Lemma works_uncut n : Forall calm_uncut (repeat (Work Done) n).
Proof. induction n; constructor; auto. split; [exact Logic.I|discriminate]. Qed.
Lemma drain q : forall s g b, y_conn s = Some (mkConn g b q) -> y_work s = None -> home_of (y_remote s) <> None -> Forall wellmade q ->
  exists l s', Forall calm_uncut l /\ run s l = Some s' /\ y_done s' = y_done s + zlen q.
Proof.
  induction q as [|m q IH]; intros s g b C W Hh F; [exists [], s; repeat split; [constructor|cbn; lia]|].
  inversion F as [|? ? F1 F2]; subst.
  set (s1 := mkSys (y_home s) (y_remote s) (Some (mkConn g b q)) (Some (g, plan (g_id g) (y_remote s) m)) (y_done s)).
  destruct (work_all _ s1 g eq_refl Hh (plan_doable _ _ _ F1)) as (s2 & R & D1 & D2 & D3 & D4 & D5).
  destruct (IH s2 g b D3 D2) as (l & s3 & L & R3 & D); [rewrite D5; exact Hh|exact F2|].
  exists (Take :: repeat (Work Done) (S (length (plan (g_id g) (y_remote s) m))) ++ l), s3. split; [|split].
  - constructor; [split; [exact Logic.I|discriminate]|]. apply Forall_app. split; [apply works_uncut|exact L].
  - change (run s (Take :: repeat (Work Done) (S (length (plan (g_id g) (y_remote s) m))) ++ l))
      with (match step s Take with Some s' => run s' (repeat (Work Done) (S (length (plan (g_id g) (y_remote s) m))) ++ l) | None => None end).
    cbn [step]. rewrite C, W. fold s1. rewrite run_app, R. exact R3.
  - rewrite D, D1, zlen_cons'. cbn [s1 y_done]. lia.
Qed.
Lemma uncut_calm l : Forall calm_uncut l -> Forall calm l.
Proof. apply Forall_impl. intros m [H _]. exact H. Qed.

Lemma known_registered s g : known s g -> registered (y_home s) (g_remote g) = true.
Proof. intros [K _]. unfold registered. rewrite K. apply same_refl. Qed.
(** From a state without unfinished work. *)
Lemma reach_idle s g : paired s g -> known s g -> sound s -> y_work s = None ->
  (y_conn s = None \/ exists q, y_conn s = Some (mkConn g true q)) ->
  exists l s', Forall calm_uncut l /\ run s l = Some s' /\ y_done s + pending s < y_done s'.
Proof.
  intros P K A W C. pose proof (known_registered _ _ K) as Rg. destruct K as [K1 K2]. assert (H3 : home_of (y_remote s) = Some g) by apply P.
  set (s1 := fun q => mkSys (y_home s) (y_remote s) (Some (mkConn g true (q ++ [exports (y_home s) (g_remote g)]))) None (y_done s)).
  assert (X : forall q, Forall wellmade q -> exists l s', Forall calm_uncut l /\ run (s1 q) l = Some s' /\ y_done s' = y_done s + zlen q + 1).
  { intros q Q. destruct (drain (q ++ [exports (y_home s) (g_remote g)]) (s1 q) g true eq_refl eq_refl) as (l & s' & L & R & D).
    - cbn. rewrite H3. discriminate.
    - apply Forall_app. split; [exact Q|]. constructor; [apply exports_wellmade|constructor].
    - exists l, s'. split; [exact L|]. split; [exact R|]. rewrite D. unfold zlen. rewrite app_length. cbn. lia. }
  assert (U : forall m, m <> Cut -> calm m -> calm_uncut m) by (intros; split; assumption).
  destruct C as [C|[q C]].
  - destruct (X []) as (l & s' & L & R & D); [constructor|]. exists (Connect (Some true) :: Send true :: l), s'. split; [|split].
    + constructor; [apply U; [discriminate|exact Logic.I]|]. constructor; [apply U; [discriminate|exact Logic.I]|exact L].
    + cbn [run step]. rewrite C, W, H3. unfold accepts. rewrite Rg. cbn [andb y_conn y_home c_reg]. rewrite K2, K1. cbn [negb]. exact R.
    + unfold pending, queue. rewrite C, W, D. cbn. lia.
  - destruct A as [A _]. unfold queue in A. rewrite C in A. destruct (X q A) as (l & s' & L & R & D). exists (Send true :: l), s'. split; [|split].
    + constructor; [apply U; [discriminate|exact Logic.I]|exact L].
    + cbn [run step]. rewrite C, K2, K1, W. cbn [negb]. exact R.
    + unfold pending, queue. rewrite C, W, D. cbn [c_queue]. lia.
Qed.
Lemma paired_run s g l s' : paired s g -> Forall calm l -> run s l = Some s' -> paired s' g.
Proof.
  intros P F R. destruct (Inv_run _ _ _ (proj1 P) _ _ _ F (start_inv s g P) R) as [(B1 & B2 & B3 & B4) _].
  split; [rewrite B1; apply P|]. auto.
Qed.
Lemma reaches_uncut s g : reached s -> paired s g -> known s g -> (forall c, y_conn s = Some c -> c_served c = true) ->
  exists l s', Forall calm_uncut l /\ run s l = Some s' /\ in_sync (y_home s') g (y_remote s').
Proof.
  intros Re P K V. pose proof (reached_sound _ Re) as A. destruct (y_work s) as [[g' tasks]|] eqn:W.
  - assert (T : Forall doable tasks) by (destruct A as [_ A]; rewrite W in A; exact A).
    destruct (work_all tasks s g' W) as (s1 & R1 & D1 & D2 & D3 & D4 & D5); [destruct P as (_ & _ & P3 & _); rewrite P3; discriminate|exact T|].
    assert (P1 : paired s1 g) by (apply (paired_run _ _ _ _ P (uncut_calm _ (works_uncut _)) R1)).
    assert (K1 : known s1 g) by (unfold known; rewrite D4; exact K).
    assert (A1 : sound s1) by (unfold sound, queue; rewrite D3, D2; split; [apply A|exact Logic.I]).
    destruct (reach_idle s1 g P1 K1 A1 D2) as (l & s' & L & R & D).
    + rewrite D3. destruct (y_conn s) as [[g2 b q]|] eqn:C; [right|left; reflexivity]. pose proof (V _ eq_refl) as V'. cbn in V'. subst b.
      destruct P as (_ & _ & _ & P4). pose proof (P4 _ C) as G. cbn in G. subst g2. eauto.
    + exists (repeat (Work Done) (S (length tasks)) ++ l), s'. split; [apply Forall_app; split; [apply works_uncut|exact L]|].
      split; [rewrite run_app, R1; exact R|]. exact (converges _ _ _ _ P1 (uncut_calm _ L) R D).
  - destruct (reach_idle s g P K A W) as (l & s' & L & R & D).
    + destruct (y_conn s) as [[g2 b q]|] eqn:C; [right|left; reflexivity]. pose proof (V _ eq_refl) as V'. cbn in V'. subst b.
      destruct P as (_ & _ & _ & P4). pose proof (P4 _ C) as G. cbn in G. subst g2. eauto.
    + exists l, s'. split; [exact L|]. split; [exact R|]. exact (converges _ _ _ _ P (uncut_calm _ L) R D).
Qed.
Lemma reached_step s m s' : reached s -> step s m = Some s' -> reached s'.
Proof. intros (s0 & l & C & W & R) S. exists s0, (l ++ [m]). repeat split; auto. rewrite run_app, R. cbn [run]. rewrite S. reflexivity. Qed.
Lemma reaches s g : reached s -> home_ok (y_home s) -> remote_ok (y_remote s) -> home_of (y_remote s) = Some g -> known s g ->
  exists l s', Forall calm l /\ run s l = Some s' /\ in_sync (y_home s') g (y_remote s').
Proof.
  intros Re H1 H2 H3 K. set (s1 := mkSys (y_home s) (y_remote s) None (y_work s) (y_done s)).
  destruct (reaches_uncut s1 g) as (l & s' & L & R & Y).
  - apply (reached_step s Cut); [exact Re|reflexivity].
  - unfold paired. cbn. repeat split; auto; try apply H1. discriminate.
  - exact K.
  - cbn. discriminate.
  - exists (Cut :: l), s'. split; [constructor; [exact Logic.I|apply uncut_calm, L]|]. split; [exact R|exact Y].
Qed.

(** What is sent. *)
Lemma sent s ok s' c : home_ok (y_home s) -> y_conn s = Some c -> c_served c = true -> known s (c_reg c) -> step s (Send ok) = Some s' ->
  exists c' m, y_conn s' = Some c' /\ c_queue c' = c_queue c ++ [m]
    /\ forall w, In w m <-> told (y_home s) (g_remote (c_reg c)) (w_key w) w.
Proof.
  intros H C V [K1 K2] S. destruct c as [g b q]. cbn in V, K1, K2. subst b. cbn [step] in S. rewrite C, K2, K1 in S. cbn [negb] in S.
  injection S as <-. eexists. eexists. split; [reflexivity|]. split; [reflexivity|]. intros w. apply export_told, H.
Qed.

(** A connection that is not served. *)
Lemma connect_served s a s' : step s (Connect a) = Some s' -> exists g b,
  home_of (y_remote s) = Some g /\ y_conn s' = Some (mkConn g b [])
  /\ (b = true <-> get (g_remote g) (h_mirrors (y_home s)) = Some (MRemote (g_remote g)) /\ a <> Some false).
Proof.
  cbn [step]. destruct (y_conn s); [discriminate|]. destruct (y_work s); [discriminate|]. destruct (home_of (y_remote s)) as [g|]; [|discriminate].
  intros [= <-]. exists g. eexists. split; [reflexivity|]. split; [reflexivity|]. unfold accepts, registered. rewrite Bool.andb_true_iff.
  destruct (get (g_remote g) (h_mirrors (y_home s))) as [[id|g']|].
  - rewrite same_iff. split; [intros [-> A]; split; [reflexivity|]; intros ->; discriminate A|]. intros [[= ->] A]. split; [reflexivity|]. destruct a as [[|]|]; auto.
  - split; [intros [[=] _]|intros [[=] _]].
  - split; [intros [[=] _]|intros [[=] _]].
Qed.
Definition unserved (q : list (list wrapper)) (s : sys) : Prop :=
  match y_conn s with Some c => c_served c = false /\ exists p, q = p ++ c_queue c | None => True end.
Lemma unserved_step q s m s' : uncut m -> unserved q s -> step s m = Some s' -> unserved q s'.
Proof.
  unfold unserved. intros Q U S. destruct m as [?|?|k a|al|ok| | |o]; try destruct Q; cbn [step] in S.
  - injection S as <-. exact U.
  - injection S as <-. exact U.
  - injection S as <-. exact U.
  - destruct (y_conn s) as [[g [|] p]|]; try discriminate. destruct U as [[=] _].
  - destruct (y_conn s) as [[g b [|x p]]|]; try discriminate. destruct (y_work s); [discriminate|]. injection S as <-. cbn in *.
    destruct U as [U [p' E]]. split; [exact U|]. exists (p' ++ [x]). rewrite E, <- app_assoc. reflexivity.
  - destruct (y_work s) as [[g [|t rest]]|]; [| |discriminate].
    + destruct o; [destruct (home_of (y_remote s))| |]; injection S as <-; cbn; auto.
    + destruct (execute (g_id g) t (y_remote s)); destruct o; injection S as <-; cbn; auto.
Qed.
Lemma unserved_run q l : forall s s', Forall uncut l -> unserved q s -> run s l = Some s' -> unserved q s'.
Proof.
  induction l as [|m l IH]; cbn [run]; intros s s' F U R; [injection R as <-; exact U|]. inversion F as [|? ? F1 F2]; subst.
  destruct (step s m) as [s1|] eqn:S; [|discriminate]. exact (IH _ _ F2 (unserved_step _ _ _ _ F1 U S) R).
Qed.
Lemma not_served s c l s' : y_conn s = Some c -> c_served c = false -> Forall uncut l -> run s l = Some s' ->
  exists p, c_queue c = p ++ queue s'.
Proof.
  intros C V F R. assert (U : unserved (c_queue c) s) by (unfold unserved; rewrite C; split; [exact V|exists []; reflexivity]).
  pose proof (unserved_run _ _ _ _ F U R) as U'. unfold unserved in U'. unfold queue. destruct (y_conn s') as [c'|].
  - apply U'.
  - exists (c_queue c). rewrite app_nil_r. reflexivity.
Qed.
(** Nothing happens any more when such a connection is not closed. *)
Lemma stuck_run g l : forall s s', Forall calm_uncut l -> y_conn s = Some (mkConn g false []) -> y_work s = None -> run s l = Some s' ->
  still (y_remote s) (y_remote s') /\ y_home s' = y_home s.
Proof.
  induction l as [|m l IH]; cbn [run]; intros s s' F C W R; [injection R as <-; split; [apply still_refl|reflexivity]|]. inversion F as [|? ? [F1 F2] F3]; subst.
  destruct (step s m) as [s1|] eqn:S; [|discriminate].
  assert (X : still (y_remote s) (y_remote s1) /\ y_home s1 = y_home s /\ y_conn s1 = Some (mkConn g false []) /\ y_work s1 = None).
  { destruct m as [?|?|k a|al|ok| | |o]; try destruct F1; cbn [step] in S; rewrite ?C, ?W in S; try discriminate.
    - injection S as <-. cbn. repeat split; auto; [apply reconcile_spec|apply reconcile_parts].
    - congruence. }
  destruct X as (X1 & X2 & X3 & X4). destruct (IH _ _ F3 X3 X4 R) as [Y1 Y2]. split; [exact (still_trans _ _ _ X1 Y1)|congruence].
Qed.
Lemma still_sync h g r r' : still r r' -> home_ok h -> in_sync h g r' -> in_sync h g r.
Proof.
  intros [A _] K Y. apply follows_sync; [exact K|]. apply (spec_follows _ _ r'); [intros j; symmetry; apply A|]. apply follows_sync; assumption.
Qed.

(** * C97 *)
Section Untouched.
  Variables (h : home) (g : registration) (k : name) (r0 : remote).
  Hypothesis HK : home_ok h.
  Hypothesis NT : forall w, ~ told h (g_remote g) k w.
  Definition apart (s : sys) : Prop :=
    base h g s /\ ~ named s k /\ (forall t, get k (r_topics (y_remote s)) = Some t -> ~ mirror_of (g_id g) t) /\ kept k r0 (y_remote s).
  Lemma apart_spec r r' : option_map t_spec (get k (r_topics r')) = option_map t_spec (get k (r_topics r)) ->
    (forall t, get k (r_topics r) = Some t -> ~ mirror_of (g_id g) t) -> forall t, get k (r_topics r') = Some t -> ~ mirror_of (g_id g) t.
  Proof.
    intros E N t G M. rewrite G in E. destruct (get k (r_topics r)) as [t0|]; [|discriminate]. injection E as E. apply (N t0 eq_refl).
    unfold mirror_of in *. rewrite <- E. exact M.
  Qed.
  Lemma kept_trans r r' : kept k r0 r -> option_map t_spec (get k (r_topics r')) = option_map t_spec (get k (r_topics r)) ->
    (forall i x, In ((k, i), x) (r_parts r) -> In ((k, i), x) (r_parts r')) -> kept k r0 r'.
  Proof. intros [A B] C D. split; [congruence|auto]. Qed.
  Lemma apart_step s m s' : calm m -> apart s -> step s m = Some s' -> apart s'.
  Proof.
    intros Q ((B1 & B2 & B3 & B4) & N & M & T) S. destruct m as [?|?|j a|al|ok| | |o]; try destruct Q; cbn [step] in S.
    - injection S as <-. repeat split; cbn [y_home y_remote y_conn]; auto.
      + apply reconcile_ok, B2.
      + unfold home_of. rewrite reconcile_mirrors. exact B3.
      + apply (apart_spec (y_remote s)); [apply reconcile_spec|exact M].
      + rewrite reconcile_spec. apply T.
      + intros i x I. apply reconcile_parts, T, I.
    - destruct (y_conn s) eqn:C; [discriminate|]. destruct (y_work s) eqn:W; [discriminate|]. rewrite B3 in S. injection S as <-.
      split; [unfold base; cbn; repeat split; auto; intros c [= <-]; reflexivity|]. split; [|split; assumption].
      intros [(m & w & I & _)|(g' & l & t & E & _)]; [destruct I|discriminate E].
    - destruct (y_conn s) as [[g' [|] q]|] eqn:C; try discriminate. pose proof (B4 _ eq_refl) as G. cbn in G. subst g'.
      destruct (negb _); [injection S as <-; split; [unfold base; rewrite C; auto|auto]|].
      destruct (get (g_remote g) (h_mirrors (y_home s))); injection S as <-.
      + split; [unfold base; cbn; repeat split; auto; intros c [= <-]; reflexivity|]. split; [|split; assumption].
        intros [(m' & w & I & J & E)|(g' & l & t & E & I)].
        * unfold queue in I. cbn in I. apply in_app_iff in I as [I|[<-|[]]].
          -- apply N. left. exists m', w. unfold queue. rewrite C. auto.
          -- rewrite B1 in J. apply export_told in J; [|exact HK]. rewrite E in J. exact (NT _ J).
        * apply N. right. exists g', l, t. auto.
      + split; [unfold base; cbn; repeat split; auto; intros c [= <-]; reflexivity|]. split; [|split; assumption].
        intros [(m' & w & I & J & E)|X]; [|apply N; right; exact X]. apply N. left. exists m', w. unfold queue. rewrite C. auto.
    - injection S as <-. split; [unfold base; cbn; repeat split; auto; discriminate|]. split; [|split; assumption].
      intros [(m & w & I & _)|X]; [destruct I|]. apply N. right. exact X.
    - destruct (y_conn s) as [[g' b [|x q]]|] eqn:C; try discriminate. destruct (y_work s) eqn:W; [discriminate|]. injection S as <-.
      pose proof (B4 _ eq_refl) as G. cbn in G. subst g'.
      split; [unfold base; cbn; repeat split; auto; intros c [= <-]; reflexivity|]. split; [|split; assumption].
      intros [(m & w & I & J & E)|(g' & l & t & E & I & F)].
      + apply N. left. exists m, w. unfold queue. rewrite C. cbn. auto.
      + cbn in E. injection E as <- <-. unfold plan in I. apply in_app_iff in I as [I|I]; apply in_map_iff in I as [y [<- I]]; cbn in F; subst.
        * apply filter_In in I as [I _]. apply mine_iff in I as (t & G & X); [|exact B2]. exact (M _ G X).
        * apply N. left. exists x, y. unfold queue. rewrite C. cbn. auto.
    - destruct (y_work s) as [[g' [|t rest]]|] eqn:W; [| |discriminate].
      + rewrite B3 in S. assert (N' : forall c d, (c = y_conn s \/ c = None) -> ~ named (mkSys (y_home s) (y_remote s) c None d) k).
        { intros c d [-> | ->] [(m & w & I & J & E)|(g2 & l & t & E & _)]; try discriminate E.
          - apply N. left. exists m, w. auto.
          - destruct I. }
        destruct o; injection S as <-; (split; [unfold base; cbn; repeat split; auto; discriminate|split; [apply N'; auto|split; assumption]]).
      + assert (K : task_name t <> k).
        { intros E. apply N. right. exists g', (t :: rest), t. split; [exact W|]. split; [left; reflexivity|exact E]. }
        assert (N' : forall r c w d, (c = y_conn s \/ c = None) -> (w = None \/ w = Some (g', rest)) -> ~ named (mkSys (y_home s) r c w d) k).
        { intros r c w d X Y [(m & u & I & J & E)|(g2 & l & u & E & I & F)].
          - destruct X as [-> | ->]; [|destruct I]. apply N. left. exists m, u. auto.
          - cbn in E. destruct Y as [-> | ->]; [discriminate|]. injection E as <- <-. apply N. right. exists g', (t :: rest), u. split; [exact W|]. split; [right; exact I|exact F]. }
        destruct (execute (g_id g') t (y_remote s)) as [r|] eqn:X.
        * destruct (execute_other _ _ _ _ k X K) as [O1 O2].
          assert (R1 : remote_ok r) by (exact (execute_ok _ _ _ _ B2 X)).
          assert (R2 : home_of r = Some g) by (unfold home_of; rewrite (execute_mirrors _ _ _ _ X); exact B3).
          assert (R3 : kept k r0 r) by (apply (kept_trans _ _ T); [rewrite O1; reflexivity|exact O2]).
          destruct o; injection S as <-; (split; [unfold base; cbn; repeat split; auto; discriminate|split; [apply N'; auto|split; cbn [y_remote]; [rewrite ?O1; exact M|assumption]]]).
        * assert (S' : Some (mkSys (y_home s) (y_remote s) None None (y_done s)) = Some s') by (destruct o; exact S).
          injection S' as <-. split; [unfold base; cbn; repeat split; auto; discriminate|split; [apply N'; auto|split; assumption]].
  Qed.
  Lemma apart_run l : forall s s', Forall calm l -> apart s -> run s l = Some s' -> apart s'.
  Proof.
    induction l as [|m l IH]; cbn [run]; intros s s' F U R; [injection R as <-; exact U|]. inversion F as [|? ? F1 F2]; subst.
    destruct (step s m) as [s1|] eqn:S; [|discriminate]. exact (IH _ _ F2 (apart_step _ _ _ F1 U S) R).
  Qed.
End Untouched.
Lemma untouched s g k l s' : paired s g -> (forall w, ~ told (y_home s) (g_remote g) k w) -> ~ named s k ->
  (forall t, get k (r_topics (y_remote s)) = Some t -> ~ mirror_of (g_id g) t) -> Forall calm l -> run s l = Some s' ->
  kept k (y_remote s) (y_remote s').
Proof.
  intros (H1 & H2 & H3 & H4) NT N M F R.
  apply (apart_run (y_home s) g k (y_remote s) H1 NT l s s' F); [|exact R].
  split; [unfold base; auto|]. split; [exact N|]. split; [exact M|]. split; auto.
Qed.

(** A topic that is new at the remote. *)
Lemma override_self e : override e e = e.
Proof. destruct e as [[a|] [b|] c d]; reflexivity. Qed.
Lemma new_topic id w r parts source a ids b : sp_replicas (w_spec w) = RHome parts source -> nothing_at r (w_key w) ->
  exists r', sync_topic id w r = Some r' /\
    let r'' := reconcile (w_key w) b (reconcile (w_key w) ((0, ids) :: a) r') in
    (exists t, get (w_key w) (r_topics r'') = Some t /\ from_ (w_spu w) id source t
       /\ sp_settings (t_spec t) = sp_settings (w_spec w) /\ t_ready t = true)
    /\ In ((w_key w, 0), Some (mkLink (w_spu w) id source)) (r_parts r'')
    /\ (forall x, In ((w_key w, 0), x) (r_parts r'') -> x = Some (mkLink (w_spu w) id source) \/ In 0 (map fst a)).
Proof.
  intros R [G N]. unfold sync_topic. rewrite R, G. eexists. split; [reflexivity|].
  assert (HP : has_part (w_key w) 0 (r_parts r) = false).
  { unfold has_part. apply Bool.not_true_is_false. intros E. apply existsb_exists in E as [[[j i] x] [I E]]. cbn in E.
    apply Bool.andb_true_iff in E as [E1 E2]. apply same_iff in E1. apply Z.eqb_eq in E2. subst. exact (N _ _ I). }
  assert (PC : part_count (RRemote [w_spu w] id source) >? zlen ((0, ids) :: a) = false).
  { rewrite zlen_cons'. pose proof (zlen_pos a). cbn [part_count]. change (zlen [w_spu w]) with 1. rewrite Z.gtb_ltb. apply Z.ltb_ge. lia. }
  set (sp := mkSpec (RRemote [w_spu w] id source) (override (sp_settings (w_spec w)) (sp_settings (w_spec w))) (sp_system (w_spec w))).
  set (t1 := mkTopic sp true ((0, ids) :: a) [(0, mkLink (w_spu w) id source)]).
  assert (Q1 : reconcile (w_key w) ((0, ids) :: a) (set_topics r (put (w_key w) (fresh sp) (r_topics r)))
               = mkRemote (put (w_key w) t1 (put (w_key w) (fresh sp) (r_topics r))) (r_parts r) (r_mirrors r)).
  { unfold reconcile. cbn [set_topics r_topics]. rewrite get_put, same_refl. reflexivity. }
  rewrite Q1. clear Q1. set (tt := put (w_key w) t1 (put (w_key w) (fresh sp) (r_topics r))).
  assert (GT : get (w_key w) tt = Some t1) by (unfold tt; rewrite get_put, same_refl; reflexivity).
  assert (Q2 : reconcile (w_key w) b (mkRemote tt (r_parts r) (r_mirrors r))
               = mkRemote tt (r_parts r ++ new_parts (w_key w) t1 (r_parts r)) (r_mirrors r)).
  { unfold reconcile. cbn [r_topics]. rewrite GT. cbn [t1 t_ready t_spec t_map sp sp_replicas]. rewrite PC. reflexivity. }
  cbv zeta. rewrite Q2. cbn [r_topics r_parts]. clear Q2.
  split; [|split].
  - exists t1. split; [exact GT|]. split; [reflexivity|]. cbn. rewrite override_self. auto.
  - apply in_or_app. right. unfold new_parts, t1. cbn [t_map keep fst]. rewrite HP. left. reflexivity.
  - intros x I. apply in_app_iff in I as [I|I]; [exfalso; exact (N _ _ I)|]. unfold new_parts, t1 in I. cbn [t_map keep fst] in I. rewrite HP in I.
    destruct I as [E|I]; [left; injection E as <-; reflexivity|]. right. apply in_keep in I as [[i v] [I E]]. cbn [fst] in E.
    destruct (has_part (w_key w) i (r_parts r)); [discriminate|]. injection E as -> _. apply (in_map fst) in I. exact I.
Qed.

(** * Examples *)
Definition e0 : settings := mkSettings None (Some 7) 0 None.
Definition e1 : settings := mkSettings (Some 9) (Some 8) 1 None.
Definition sp5 := mkSpu 5 [50] [51].
Definition sp6 := mkSpu 6 [60] [61].
Definition sp6' := mkSpu 6 [60] [62].
Definition home_topic (e : settings) : topic := mkTopic (mkSpec (RHome [[7]; [1]] false) e false) true [(0, [5]); (1, [6])] [].
Definition g0 := mkReg [2] [1].
Definition h0 := mkHome [([10], home_topic e0)] [sp5; sp6] [([1], MRemote [1])] true.
Definition r0 := mkRemote [] [] [([2], MHome g0)].
Definition s0 := mkSys h0 r0 None None 0.
Definition handled : list move := [Send true; Take; Work Done; Work Done].
Definition placed : list move := [Reconcile [10] [(0, [1])]; Reconcile [10] []].
(** A run in which all goes well. *)
Definition well : list move := Connect (Some true) :: handled ++ placed.
Definition after (s : sys) (l : list move) : sys := match run s l with Some s' => s' | None => s end.
Definition s1 := after s0 well.
Lemma run_well : run s0 well = Some s1. Proof. vm_compute. reflexivity. Qed.
Lemma told_w0 : told h0 [1] [10] (mkWrapper [10] (t_spec (home_topic e0)) sp6).
Proof.
  exists (home_topic e0), [[7]; [1]], false, 1%nat, []. cbn. repeat split; auto. intros [E|[]]. discriminate E.
Qed.
Lemma h_ok t s m b : NoDup (map s_id s) -> home_ok (mkHome [t] s m b).
Proof. intros N. split; [constructor; [intros []|constructor]|exact N]. Qed.
Lemma two_ids a b c d : NoDup (map s_id [mkSpu 5 a b; mkSpu 6 c d]).
Proof. constructor; [intros [E|[]]; discriminate E|]. constructor; [intros []|constructor]. Qed.
Lemma h0_ok : home_ok h0. Proof. apply h_ok, two_ids. Qed.
Lemma paired0 : paired s0 g0.
Proof. split; [exact h0_ok|]. split; [constructor|]. split; [reflexivity|]. cbn. discriminate. Qed.
Lemma known0 : known s0 g0. Proof. split; reflexivity. Qed.
Lemma well_calm : Forall calm well.
Proof. repeat constructor. Qed.
Lemma well_sync : in_sync (y_home s1) g0 (y_remote s1).
Proof. apply (converges s0 g0 well s1 paired0 well_calm run_well). vm_compute. reflexivity. Qed.
Lemma reach_after l s : run s0 l = Some s -> reached s.
Proof. intros R. exists s0, l. auto. Qed.

(** The connection that is not served again: unregistered, and registered again. *)
Definition h_gone := mkHome [([10], home_topic e0)] [sp5; sp6] [] true.
Definition h_more := mkHome [([10], home_topic e0); ([11], home_topic e0)] [sp5; sp6] [([1], MRemote [1])] true.
Definition l_stuck : list move := well ++ [HomeDoes h_gone; Send true; HomeDoes h_more].
Definition s_stuck := after s0 l_stuck.
Lemma h_more_ok : home_ok h_more.
Proof. split; [|apply two_ids]. constructor; [intros [E|[]]; discriminate E|]. constructor; [intros []|constructor]. Qed.
Lemma stuck : exists s g, reached s /\ paired s g /\ known s g /\ y_conn s <> None
  /\ forall l s', Forall calm_uncut l -> run s l = Some s' -> ~ in_sync (y_home s') g (y_remote s').
Proof.
  assert (R : run s0 l_stuck = Some s_stuck) by (vm_compute; reflexivity).
  assert (C : y_conn s_stuck = Some (mkConn g0 false [])) by (vm_compute; reflexivity).
  assert (H : y_home s_stuck = h_more) by (vm_compute; reflexivity).
  exists s_stuck, g0. split; [apply (reach_after _ _ R)|]. split; [|split; [|split]].
  - split; [rewrite H; exact h_more_ok|]. split; [vm_compute; repeat constructor; intros []|]. split; [vm_compute; reflexivity|].
    intros c E. rewrite C in E. injection E as <-. reflexivity.
  - unfold known. rewrite H. split; reflexivity.
  - rewrite C. discriminate.
  - intros l s' F X Y. destruct (stuck_run g0 l s_stuck s' F C) as [Z1 Z2]; [vm_compute; reflexivity|exact X|].
    rewrite Z2, H in Y. apply (still_sync _ _ _ _ Z1 h_more_ok) in Y. destruct Y as [Y _].
    destruct (Y [11] (mkWrapper [11] (t_spec (home_topic e0)) sp6) [[7]; [1]] false) as (t & G & _); [|reflexivity|].
    + exists (home_topic e0), [[7]; [1]], false, 1%nat, []. cbn. repeat split; auto. intros [E|[]]. discriminate E.
    + assert (G' : get [11] (r_topics (y_remote s_stuck)) = None) by (vm_compute; reflexivity). rewrite G' in G. discriminate G.
Qed.
(** Connected before it was registered. *)
Definition s_early := after (mkSys h_gone r0 None None 0) [Connect (Some true); HomeDoes h0].
Lemma early : exists s g, reached s /\ paired s g /\ known s g /\ y_conn s <> None
  /\ forall l s', Forall calm_uncut l -> run s l = Some s' -> r_topics (y_remote s') = [].
Proof.
  exists s_early, g0. split; [exists (mkSys h_gone r0 None None 0), [Connect (Some true); HomeDoes h0]; repeat split|]. split; [|split; [|split]].
  - split; [exact h0_ok|]. split; [constructor|]. split; [reflexivity|]. intros c [= <-]. reflexivity.
  - split; reflexivity.
  - discriminate.
  - intros l s' F X. destruct (stuck_run g0 l s_early s' F eq_refl eq_refl X) as [[Z1 _] _].
    destruct (r_topics (y_remote s')) as [|[k t] l']; [reflexivity|]. specialize (Z1 k). cbn [get] in Z1. rewrite same_refl in Z1. discriminate Z1.
Qed.

(** A topic of the remote's own, of the same name as one of the home. *)
Definition own : topic := mkTopic (mkSpec (ROrdinary 3 1) e1 false) true [(0, [1])] [].
Definition r_own := mkRemote [([10], own)] [(([10], 0), None)] [([2], MHome g0)].
Definition h_none := mkHome [] [sp5; sp6] [([1], MRemote [1])] true.
Definition l_taken : list move := [Connect (Some true); Send true; Take; Work Done; Work Done; HomeDoes h_none; Send true; Take; Work Done; Work Done].
Lemma taken_over : exists s l s' k t p,
  get k (r_topics (y_remote s)) = Some t /\ (forall id, ~ mirror_of id t) /\ r_parts (y_remote s) = [p] /\ fst (fst p) = k
  /\ y_conn s = None /\ y_work s = None /\ Forall (fun m => forall r, m <> RemoteDoes r) l /\ run s l = Some s'
  /\ get k (r_topics (y_remote s')) = None /\ r_parts (y_remote s') = [].
Proof.
  exists (mkSys h0 r_own None None 0), l_taken, (after (mkSys h0 r_own None None 0) l_taken), [10], own, (([10], 0), None).
  split; [reflexivity|]. split; [intros id (? & ? & [=])|]. split; [reflexivity|]. split; [reflexivity|]. split; [reflexivity|]. split; [reflexivity|].
  split; [repeat constructor; discriminate|]. split; [vm_compute; reflexivity|]. split; vm_compute; reflexivity.
Qed.

(** The home's SPU is at another address. *)
Definition h_moved := mkHome [([10], home_topic e0)] [sp5; sp6'] [([1], MRemote [1])] true.
Definition l_moved : list move := well ++ HomeDoes h_moved :: handled ++ placed.
Definition s_moved := after s0 l_moved.
Lemma moved : exists s g k w x, reached s /\ paired s g /\ in_sync (y_home s) g (y_remote s) /\ told (y_home s) (g_remote g) k w
  /\ s_addr (l_spu x) <> s_addr (w_spu w)
  /\ forall l s', Forall calm l -> run s l = Some s' ->
       In ((k, 0), Some x) (r_parts (y_remote s')) /\ in_sync (y_home s') g (y_remote s').
Proof.
  assert (R : run s0 l_moved = Some s_moved) by (vm_compute; reflexivity).
  assert (H : y_home s_moved = h_moved) by (vm_compute; reflexivity).
  assert (K : home_ok h_moved) by (apply h_ok, two_ids).
  assert (C : y_conn s_moved = Some (mkConn g0 true [])) by (vm_compute; reflexivity).
  assert (P : paired s_moved g0).
  { split; [rewrite H; exact K|]. split; [vm_compute; repeat constructor; intros []|]. split; [vm_compute; reflexivity|]. intros c E. rewrite C in E. injection E as <-. reflexivity. }
  assert (Y : in_sync (y_home s_moved) g0 (y_remote s_moved)).
  { set (s := after s0 (well ++ [HomeDoes h_moved])). assert (H' : y_home s = h_moved) by (vm_compute; reflexivity).
    assert (C' : y_conn s = Some (mkConn g0 true [])) by (vm_compute; reflexivity).
    apply (converges s g0 (handled ++ placed) s_moved).
    - split; [rewrite H'; exact K|]. split; [vm_compute; repeat constructor; intros []|]. split; [vm_compute; reflexivity|]. intros c E. rewrite C' in E. injection E as <-. reflexivity.
    - repeat constructor.
    - vm_compute. reflexivity.
    - vm_compute. reflexivity. }
  exists s_moved, g0, [10], (mkWrapper [10] (t_spec (home_topic e0)) sp6'), (mkLink sp6 [2] false).
  split; [apply (reach_after _ _ R)|]. split; [exact P|]. split; [exact Y|]. split; [|split].
  - rewrite H. exists (home_topic e0), [[7]; [1]], false, 1%nat, []. cbn. repeat split; auto. intros [E|[]]. discriminate E.
  - discriminate.
  - intros l s' F X. destruct (stays s_moved g0 l s' P Y) as [Y' Z]; [vm_compute; reflexivity|exact F|exact X|]. split; [|exact Y'].
    destruct (Z [10]) as [_ Z2]. apply Z2. vm_compute. left. reflexivity.
Qed.

(** The settings of the home's topic have changed. *)
Definition h_set := mkHome [([10], home_topic e1)] [sp5; sp6] [([1], MRemote [1])] true.
Definition s_set := after s0 (well ++ [HomeDoes h_set]).
Lemma settings_stay : exists s g k w t, reached s /\ paired s g /\ known s g /\ told (y_home s) (g_remote g) k w
  /\ get k (r_topics (y_remote s)) = Some t /\ sp_settings (t_spec t) <> sp_settings (w_spec w)
  /\ forall l s', Forall calm l -> run s l = Some s' ->
       exists t', get k (r_topics (y_remote s')) = Some t' /\ sp_settings (t_spec t') = sp_settings (t_spec t).
Proof.
  assert (R : run s0 (well ++ [HomeDoes h_set]) = Some s_set) by (vm_compute; reflexivity).
  assert (H : y_home s_set = h_set) by (vm_compute; reflexivity).
  assert (K : home_ok h_set) by (apply h_ok, two_ids).
  assert (C : y_conn s_set = Some (mkConn g0 true [])) by (vm_compute; reflexivity).
  assert (P : paired s_set g0).
  { split; [rewrite H; exact K|]. split; [vm_compute; repeat constructor; intros []|]. split; [vm_compute; reflexivity|]. intros c E. rewrite C in E. injection E as <-. reflexivity. }
  set (w := mkWrapper [10] (t_spec (home_topic e1)) sp6).
  set (t := mkTopic (mkSpec (RRemote [sp6] [2] false) e0 false) true [(0, [1])] [(0, mkLink sp6 [2] false)]).
  assert (G : r_topics (y_remote s_set) = [([10], t)]) by (vm_compute; reflexivity).
  assert (Y : in_sync (y_home s_set) g0 (y_remote s_set)).
  { rewrite H. apply follows_sync; [exact K|]. split.
    - intros x [<-|[]]. exists [[7]; [1]], false, t. rewrite G. split; [reflexivity|]. split; reflexivity.
    - intros k u Gu _. rewrite G in Gu. apply get_in in Gu as [[= <- <-]|[]]. exists w. split; [left; reflexivity|reflexivity]. }
  exists s_set, g0, [10], w, t. split; [apply (reach_after _ _ R)|]. split; [exact P|]. split; [unfold known; rewrite H; split; reflexivity|]. split; [|split; [|split]].
  - rewrite H. exists (home_topic e1), [[7]; [1]], false, 1%nat, []. cbn. repeat split; auto. intros [E|[]]. discriminate E.
  - rewrite G. reflexivity.
  - discriminate.
  - intros l s' F X. destruct (stays s_set g0 l s' P Y) as [_ Z]; [vm_compute; reflexivity|exact F|exact X|].
    destruct (Z [10]) as [Z1 _]. rewrite G in Z1. destruct (get [10] (r_topics (y_remote s'))) as [t'|]; [|discriminate].
    exists t'. split; [reflexivity|]. change (get [10] [([10], t)]) with (Some t) in Z1. cbn [option_map] in Z1. injection Z1 as Z1. rewrite Z1. reflexivity.
Qed.

(** The home's SPU is not registered for a while. *)
Definition h_unplaced := mkHome [([10], home_topic e0)] [sp5] [([1], MRemote [1])] true.
Definition l_unplaced : list move := handled.
Lemma unplaced : exists s g k t parts l s', reached s /\ paired s g /\ known s g
  /\ In (k, t) (h_topics (y_home s)) /\ sp_replicas (t_spec t) = RHome parts false /\ In (g_remote g) parts
  /\ get k (r_topics (y_remote s)) <> None /\ r_parts (y_remote s) <> []
  /\ Forall calm_uncut l /\ run s l = Some s' /\ get k (r_topics (y_remote s')) = None /\ r_parts (y_remote s') = [].
Proof.
  set (s := after s0 (well ++ [HomeDoes h_unplaced])).
  assert (R : run s0 (well ++ [HomeDoes h_unplaced]) = Some s) by (vm_compute; reflexivity).
  assert (H : y_home s = h_unplaced) by (vm_compute; reflexivity).
  assert (C : y_conn s = Some (mkConn g0 true [])) by (vm_compute; reflexivity).
  exists s, g0, [10], (home_topic e0), [[7]; [1]], l_unplaced, (after s l_unplaced). split; [apply (reach_after _ _ R)|].
  split. { split; [rewrite H; apply h_ok; constructor; [intros []|constructor]|]. split; [vm_compute; repeat constructor; intros []|].
           split; [vm_compute; reflexivity|]. intros c E. rewrite C in E. injection E as <-. reflexivity. }
  split; [unfold known; rewrite H; split; reflexivity|]. split; [rewrite H; left; reflexivity|]. split; [reflexivity|]. split; [right; left; reflexivity|].
  split; [vm_compute; discriminate|]. split; [vm_compute; discriminate|]. split; [repeat constructor; discriminate|].
  split; [vm_compute; reflexivity|]. split; vm_compute; reflexivity.
Qed.

(** A topic that users delete and create anew while a message is handled. *)
Definition r_anew := mkRemote [([10], own)] [(([10], 0), None)] [([2], MHome g0)].
Lemma race : exists s g r k t s', reached s /\ y_remote s = r /\ paired s g /\ r_topics r = [(k, t)] /\ (forall id, ~ mirror_of id t)
  /\ run s [Work Done] = Some s' /\ r_topics (y_remote s') = [].
Proof.
  set (s := after s0 (well ++ [HomeDoes h_none; Send true; Take; RemoteDoes r_anew])).
  assert (R : run s0 (well ++ [HomeDoes h_none; Send true; Take; RemoteDoes r_anew]) = Some s) by (vm_compute; reflexivity).
  assert (C : y_conn s = Some (mkConn g0 true [])) by (vm_compute; reflexivity).
  assert (H : y_home s = h_none) by (vm_compute; reflexivity).
  exists s, g0, (y_remote s), [10], own, (after s [Work Done]). split; [apply (reach_after _ _ R)|]. split; [reflexivity|].
  split. { split; [rewrite H; split; [constructor|apply two_ids]|]. split; [vm_compute; repeat constructor; intros []|].
           split; [vm_compute; reflexivity|]. intros c E. rewrite C in E. injection E as <-. reflexivity. }
  split; [vm_compute; reflexivity|]. split; [intros id (? & ? & [=])|]. split; vm_compute; reflexivity.
Qed.

(** * The home of a remote; topics that exist already *)
Lemma home_found r : (forall g, home_of r = Some g <-> exists a k b, r_mirrors r = a ++ (k, MHome g) :: b /\ forall j x, ~ In (j, MHome x) a)
  /\ (home_of r = None <-> forall j x, ~ In (j, MHome x) (r_mirrors r)).
Proof.
  unfold home_of. generalize (r_mirrors r) as l. induction l as [|[k m] l [IH1 IH2]]; cbn [first_home].
  - split.
    + intros g. split; [discriminate|]. intros (a & k & b & E & _). destruct a; discriminate E.
    + split; [intros _ j x []|reflexivity].
  - destruct m as [i|h].
    + split.
      * intros g. rewrite IH1. split.
        -- intros (a & j & b & -> & F). exists ((k, MRemote i) :: a), j, b. split; [reflexivity|]. intros j' x [E|I]; [discriminate E|exact (F _ _ I)].
        -- intros (a & j & b & E & F). destruct a as [|e a]; cbn [app] in E; injection E as E1 E2; [discriminate|]. exists a, j, b. split; [exact E2|]. intros j' x I. exact (F j' x (or_intror I)).
      * rewrite IH2. split; [intros F j x [E|I]; [discriminate E|exact (F _ _ I)]|intros F j x I; exact (F j x (or_intror I))].
    + split.
      * intros g. split.
        -- intros [= <-]. exists [], k, l. split; [reflexivity|]. intros j x [].
        -- intros (a & j & b & E & F). destruct a as [|e a]; cbn [app] in E; injection E as E1 E2; [congruence|]. exfalso. apply (F k h). left. auto.
      * split; [discriminate|]. intros F. exfalso. apply (F k h). left. reflexivity.
Qed.

Lemma existing id w r t parts source : sp_replicas (w_spec w) = RHome parts source -> get (w_key w) (r_topics r) = Some t ->
  exists r' t', sync_topic id w r = Some r' /\ get (w_key w) (r_topics r') = Some t' /\ from_ (w_spu w) id source t'
    /\ t_ready t' = t_ready t /\ t_map t' = t_map t /\ t_links t' = t_links t /\ sp_system (t_spec t') = sp_system (t_spec t)
    /\ r_parts r' = r_parts r /\ (forall j, j <> w_key w -> get j (r_topics r') = get j (r_topics r))
    /\ (from_ (w_spu w) id source t -> r' = r).
Proof.
  intros R G. unfold sync_topic. rewrite R, G. destruct (spec_eq _ _) as [E|E].
  - exists r, t. repeat split; auto. unfold from_. rewrite <- E. reflexivity.
  - eexists. eexists. split; [reflexivity|]. cbn [set_topics r_topics r_parts]. rewrite get_put. replace (same (w_key w) (w_key w)) with true by (symmetry; apply same_refl).
    split; [reflexivity|]. repeat split.
    + intros j D. rewrite get_put. replace (same (w_key w) j) with false; [reflexivity|]. symmetry. apply same_false. congruence.
    + intros F. exfalso. apply E. unfold from_ in F. destruct (t_spec t) as [x y z]. cbn in *. rewrite F. reflexivity.
Qed.
