Require Import List Lia. Import ListNotations.
From Verif Require Import Base RemoteModel RemoteSpec.

Lemma same_iff a b : same a b = true <-> a = b.
Proof. unfold same. destruct (name_eq a b); intuition congruence. Qed.
Lemma same_refl a : same a a = true. Proof. apply same_iff. reflexivity. Qed.
Lemma same_false a b : same a b = false <-> a <> b.
Proof. unfold same. destruct (name_eq a b); intuition congruence. Qed.

(** * Stores *)
Section Stores.
  Context {A : Type}.
  Lemma get_put (k : name) (v : A) l j : get j (put k v l) = if same k j then Some v else get j l.
  Proof.
    induction l as [|[x w] l IH]; cbn [put get].
    - reflexivity.
    - destruct (same x k) eqn:E; cbn [get].
      + apply same_iff in E as ->. destruct (same k j); reflexivity.
      + rewrite IH. destruct (same x j) eqn:F; [|reflexivity]. destruct (same k j) eqn:G; [|reflexivity].
        apply same_iff in F as ->. apply same_iff in G as ->. rewrite same_refl in E. discriminate E.
  Qed.
  Lemma get_del (k : name) (l : list (name * A)) j : get j (del k l) = if same k j then None else get j l.
  Proof.
    unfold del. induction l as [|[x w] l IH]; cbn [filter get fst]; [destruct (same k j); reflexivity|].
    destruct (same x k) eqn:E; cbn [negb get].
    - rewrite IH. apply same_iff in E as ->. destruct (same k j); reflexivity.
    - rewrite IH. destruct (same x j) eqn:F; [|reflexivity]. destruct (same k j) eqn:G; [|reflexivity].
      apply same_iff in F as ->. apply same_iff in G as ->. rewrite same_refl in E. discriminate E.
  Qed.
  Lemma get_in (k : name) (v : A) l : get k l = Some v -> In (k, v) l.
  Proof.
    induction l as [|[x w] l IH]; cbn [get]; [discriminate|]. destruct (same x k) eqn:E.
    - intros [= ->]. apply same_iff in E as ->. left. reflexivity.
    - intros G. right. apply IH, G.
  Qed.
  Lemma in_get (k : name) (v : A) l : NoDup (map fst l) -> In (k, v) l -> get k l = Some v.
  Proof.
    induction l as [|[x w] l IH]; cbn [map fst get]; intros N I; [destruct I|]. inversion N as [|? ? N1 N2]; subst. destruct I as [[= -> ->]|I].
    - rewrite same_refl. reflexivity.
    - destruct (same x k) eqn:E; [|apply IH; assumption]. apply same_iff in E as ->. exfalso. apply N1. apply in_map_iff. exists (k, v). auto.
  Qed.
  Lemma put_keys (k : name) (v : A) l : NoDup (map fst l) -> NoDup (map fst (put k v l)).
  Proof.
    induction l as [|[x w] l IH]; cbn [put map fst]; intros N; [constructor; [intros []|constructor]|].
    inversion N as [|? ? N1 N2]; subst. destruct (same x k) eqn:E; cbn [map fst].
    - apply same_iff in E as ->. exact N.
    - constructor; [|apply IH, N2]. intros I. apply in_map_iff in I as [[y u] [F I]]. cbn in F. subst y.
      clear IH N N2. induction l as [|[y z] l IH]; cbn [put] in I.
      + destruct I as [[= -> _]|[]]. rewrite same_refl in E. discriminate E.
      + destruct (same y k) eqn:G; cbn [In] in I.
        * destruct I as [[= -> _]|I]; [rewrite same_refl in E; discriminate E|]. apply N1. right. apply in_map_iff. exists (x, u). auto.
        * destruct I as [[= -> ->]|I]; [apply N1; left; reflexivity|]. apply IH; [intros J; apply N1; right; exact J|exact I].
  Qed.
  Lemma del_keys (k : name) (l : list (name * A)) : NoDup (map fst l) -> NoDup (map fst (del k l)).
  Proof.
    unfold del. induction l as [|[x w] l IH]; cbn [filter map fst]; intros N; [constructor|]. inversion N as [|? ? N1 N2]; subst.
    destruct (negb (same x k)); cbn [map fst]; [|apply IH, N2]. constructor; [|apply IH, N2].
    intros I. apply N1. apply in_map_iff in I as [e [F I]]. apply filter_In in I as [I _]. apply in_map_iff. exists e. auto.
  Qed.
End Stores.

(** * What the home sends *)
Lemma position_some r l : forall i j, position r l i = Some j ->
  exists n, j = i + Z.of_nat n /\ nth_error l n = Some r /\ ~ In r (firstn n l).
Proof.
  induction l as [|x l IH]; intros i j P; cbn [position] in P; [discriminate|]. destruct (same x r) eqn:E.
  - injection P as <-. apply same_iff in E as ->. exists O. cbn. repeat split; [lia|intros []].
  - destruct (IH _ _ P) as [n [-> [N F]]]. exists (S n). cbn [nth_error firstn In]. split; [lia|]. split; [exact N|].
    apply same_false in E. intros [G|G]; [congruence|auto].
Qed.
Lemma position_at r l : forall i n, nth_error l n = Some r -> ~ In r (firstn n l) -> position r l i = Some (i + Z.of_nat n).
Proof.
  induction l as [|x l IH]; intros i [|n] N F; cbn [nth_error] in N; try discriminate; cbn [position].
  - injection N as ->. rewrite same_refl. f_equal. lia.
  - cbn [firstn In] in F. destruct (same x r) eqn:E; [apply same_iff in E as ->; exfalso; apply F; left; reflexivity|].
    rewrite (IH (i + 1) n N); [f_equal; lia|]. intros G. apply F. right. exact G.
Qed.
Lemma in_keep {A B} (f : A -> option B) l y : In y (keep f l) <-> exists x, In x l /\ f x = Some y.
Proof.
  induction l as [|x l IH]; cbn [keep In]; [firstorder|]. destruct (f x) as [z|] eqn:E; cbn [In]; rewrite IH.
  - split; [intros [->|[u [I F]]]; eauto|]. intros [u [[->|I] F]]; [left; congruence|right; eauto].
  - split; [intros [u [I F]]; eauto|]. intros [u [[->|I] F]]; [congruence|eauto].
Qed.
Lemma find_spu l s : NoDup (map s_id l) -> In s l -> find (fun x => s_id x =? s_id s) l = Some s.
Proof.
  induction l as [|x l IH]; cbn [map find]; intros N I; [destruct I|]. inversion N as [|? ? N1 N2]; subst. destruct I as [->|I].
  - rewrite Z.eqb_refl. reflexivity.
  - destruct (s_id x =? s_id s) eqn:E; [|apply IH; assumption]. apply Z.eqb_eq in E. exfalso. apply N1. rewrite E. apply in_map, I.
Qed.
Lemma export_told h r w : home_ok h -> In w (exports h r) <-> told h r (w_key w) w.
Proof.
  intros [N1 N2]. unfold exports. rewrite in_keep. split.
  - intros [[k t] [I E]]. unfold export in E. cbn [snd fst] in E. destruct (sp_replicas (t_spec t)) as [|parts source|] eqn:R; try discriminate.
    destruct (position r parts 0) as [j|] eqn:P; [|discriminate]. apply position_some in P as [i [-> [P1 P2]]].
    destruct (at_index (t_map t) (0 + Z.of_nat i)) as [[|id others]|] eqn:M; try discriminate.
    destruct (find (fun s => s_id s =? id) (h_spus h)) as [s|] eqn:F; [|discriminate]. injection E as <-. cbn [w_key].
    apply find_some in F as [F1 F2]. apply Z.eqb_eq in F2. subst id.
    exists t, parts, source, i, others. cbn [w_spu w_key w_spec]. repeat split; auto.
  - intros (t & parts & source & i & others & I & R & P1 & P2 & M & S & _ & W). exists (w_key w, t). split; [exact I|].
    unfold export. cbn [snd fst]. rewrite R, (position_at _ _ _ _ P1 P2). replace (0 + Z.of_nat i) with (Z.of_nat i) by lia.
    rewrite M, (find_spu _ _ N2 S), <- W. destruct w; reflexivity.
Qed.
Lemma told_key h r k w : told h r k w -> w_key w = k.
Proof. intros (? & ? & ? & ? & ? & ? & ? & ? & ? & ? & ? & ? & ?). assumption. Qed.
Lemma exports_home h r w : In w (exports h r) -> exists parts source, sp_replicas (w_spec w) = RHome parts source.
Proof.
  unfold exports. rewrite in_keep. intros [[k t] [I E]]. unfold export in E. cbn [snd fst] in E.
  destruct (sp_replicas (t_spec t)) as [|parts source|] eqn:R; try discriminate. destruct (position r parts 0); [|discriminate].
  destruct (at_index (t_map t) z) as [[|id others]|]; try discriminate. destruct (find (fun s => s_id s =? id) (h_spus h)); [|discriminate].
  injection E as <-. cbn. eauto.
Qed.
Lemma exports_keys h r : NoDup (map fst (h_topics h)) -> NoDup (map w_key (exports h r)).
Proof.
  unfold exports. induction (h_topics h) as [|[k t] l IH]; cbn [keep map fst]; intros N; [constructor|]. inversion N as [|? ? N1 N2]; subst.
  destruct (export (h_spus h) r (k, t)) as [w|] eqn:E; [|apply IH, N2]. cbn [map]. constructor; [|apply IH, N2].
  assert (K : forall e w, export (h_spus h) r e = Some w -> w_key w = fst e).
  { intros [k' t'] w' F. unfold export in F. cbn [snd fst] in *. destruct (sp_replicas (t_spec t')); try discriminate.
    destruct (position r parts 0); [|discriminate]. destruct (at_index (t_map t') z) as [[|id o]|]; try discriminate.
    destruct (find (fun s => s_id s =? id) (h_spus h)); [|discriminate]. injection F as <-. reflexivity. }
  rewrite (K _ _ E). cbn [fst]. intros I. apply in_map_iff in I as [w' [F I]]. apply in_keep in I as [e [I G]].
  apply N1. rewrite <- F, (K _ _ G). apply in_map, I.
Qed.
Lemma unique_key m w w' : NoDup (map w_key m) -> In w m -> In w' m -> w_key w = w_key w' -> w = w'.
Proof.
  induction m as [|x m IH]; cbn [map In]; intros N I J E; [destruct I|]. inversion N as [|? ? N1 N2]; subst.
  destruct I as [->|I], J as [->|J]; auto; exfalso; apply N1; [rewrite E|rewrite <- E]; apply in_map; assumption.
Qed.
Lemma listed_iff k m : listed k m = true <-> exists w, In w m /\ w_key w = k.
Proof.
  unfold listed. rewrite existsb_exists. split; intros [w [I E]]; exists w; [apply same_iff in E|rewrite same_iff]; auto.
Qed.

(** * What the remote does with it *)
Lemma mirrors_of_iff id t : mirrors_of id t = true <-> mirror_of id t.
Proof.
  unfold mirrors_of, mirror_of. destruct (sp_replicas (t_spec t)) as [| |l h b].
  - split; [discriminate|intros (? & ? & [=])].
  - split; [discriminate|intros (? & ? & [=])].
  - rewrite same_iff. split; [intros ->; eauto|intros (? & ? & [=])]. congruence.
Qed.
Lemma mine_iff id r k : remote_ok r -> In k (mine id r) <-> exists t, get k (r_topics r) = Some t /\ mirror_of id t.
Proof.
  intros N. unfold mine. rewrite in_map_iff. split.
  - intros [[k' t] [E I]]. cbn in E. subst k'. apply filter_In in I as [I M]. cbn [snd] in M. exists t. rewrite <- mirrors_of_iff. split; [apply in_get|]; assumption.
  - intros [t [G M]]. exists (k, t). split; [reflexivity|]. apply filter_In. split; [apply get_in, G|cbn [snd]; apply mirrors_of_iff, M].
Qed.

(** [reconcile] leaves the specs as they are, and only adds partitions. *)
Lemma reconcile_spec k a r j :
  option_map t_spec (get j (r_topics (reconcile k a r))) = option_map t_spec (get j (r_topics r)).
Proof.
  unfold reconcile. destruct (get k (r_topics r)) as [t|] eqn:G; [|reflexivity]. destruct (t_ready t).
  - destruct (part_count _ >? _); [|reflexivity]. cbn [set_topics r_topics]. rewrite get_put. destruct (same k j) eqn:E; [|reflexivity].
    apply same_iff in E as <-. rewrite G. reflexivity.
  - cbn [set_topics r_topics]. rewrite get_put. destruct (same k j) eqn:E; [|reflexivity]. apply same_iff in E as <-. rewrite G. reflexivity.
Qed.
Lemma reconcile_ok k a r : remote_ok r -> remote_ok (reconcile k a r).
Proof.
  unfold remote_ok, reconcile. intros N. destruct (get k (r_topics r)) as [t|]; [|exact N]. destruct (t_ready t).
  - destruct (part_count _ >? _); [apply put_keys, N|exact N].
  - apply put_keys, N.
Qed.
Lemma reconcile_mirrors k a r : r_mirrors (reconcile k a r) = r_mirrors r.
Proof.
  unfold reconcile. destruct (get k (r_topics r)) as [t|]; [|reflexivity]. destruct (t_ready t); [destruct (part_count _ >? _)|]; reflexivity.
Qed.
Lemma reconcile_parts k a r p : In p (r_parts r) -> In p (r_parts (reconcile k a r)).
Proof.
  unfold reconcile. intros I. destruct (get k (r_topics r)) as [t|]; [|exact I]. destruct (t_ready t); [|exact I].
  destruct (part_count _ >? _); [exact I|]. cbn [r_parts]. apply in_or_app. left. exact I.
Qed.

Lemma execute_ok id t r r' : remote_ok r -> execute id t r = Some r' -> remote_ok r'.
Proof.
  unfold remote_ok. destruct t as [k|w]; cbn [execute]; intros N.
  - intros [= <-]. apply del_keys, N.
  - unfold sync_topic. destruct (sp_replicas (w_spec w)); try discriminate. destruct (get (w_key w) (r_topics r)).
    + destruct (spec_eq _ _); intros [= <-]; [exact N|apply put_keys, N].
    + intros [= <-]. apply put_keys, N.
Qed.
Lemma execute_mirrors id t r r' : execute id t r = Some r' -> r_mirrors r' = r_mirrors r.
Proof.
  destruct t as [k|w]; cbn [execute].
  - intros [= <-]. reflexivity.
  - unfold sync_topic. destruct (sp_replicas (w_spec w)); try discriminate. destruct (get (w_key w) (r_topics r)).
    + destruct (spec_eq _ _); intros [= <-]; reflexivity.
    + intros [= <-]. reflexivity.
Qed.
(** Only the topic a task names is touched. *)
Lemma execute_other id t r r' j : execute id t r = Some r' -> task_name t <> j ->
  get j (r_topics r') = get j (r_topics r) /\ forall i x, In ((j, i), x) (r_parts r) -> In ((j, i), x) (r_parts r').
Proof.
  intros E D. apply same_false in D. destruct t as [k|w]; cbn [execute task_name] in *.
  - injection E as <-. unfold remove. cbn [r_topics r_parts]. rewrite get_del, D. split; [reflexivity|].
    intros i x I. apply filter_In. split; [exact I|]. cbn [fst]. apply Bool.negb_true_iff, same_false. apply same_false in D. congruence.
  - unfold sync_topic in E. destruct (sp_replicas (w_spec w)); try discriminate. destruct (get (w_key w) (r_topics r)).
    + destruct (spec_eq _ _); injection E as <-; [auto|]. cbn [set_topics r_topics r_parts]. rewrite get_put, D. auto.
    + injection E as <-. cbn [set_topics r_topics r_parts]. rewrite get_put, D. auto.
Qed.
Lemma sync_parts id w r r' : sync_topic id w r = Some r' -> r_parts r' = r_parts r.
Proof.
  unfold sync_topic. destruct (sp_replicas (w_spec w)); try discriminate. destruct (get (w_key w) (r_topics r)).
  - destruct (spec_eq _ _); intros [= <-]; reflexivity.
  - intros [= <-]. reflexivity.
Qed.

Definition satisfied (id : name) (w : wrapper) (r : remote) : Prop :=
  exists parts source t, sp_replicas (w_spec w) = RHome parts source /\ get (w_key w) (r_topics r) = Some t /\ from_ (w_spu w) id source t.
Lemma sync_satisfies id w r r' : sync_topic id w r = Some r' -> satisfied id w r'.
Proof.
  unfold sync_topic, satisfied, from_. destruct (sp_replicas (w_spec w)) as [|parts source|]; try discriminate. intros E. exists parts, source.
  destruct (get (w_key w) (r_topics r)) as [t|] eqn:G.
  - destruct (spec_eq _ _) as [F|F]; injection E as <-.
    + exists t. split; [reflexivity|]. split; [exact G|]. rewrite <- F. reflexivity.
    + eexists. split; [reflexivity|]. cbn [set_topics r_topics]. rewrite get_put, same_refl. split; reflexivity.
  - injection E as <-. eexists. split; [reflexivity|]. cbn [set_topics r_topics]. rewrite get_put, same_refl. split; reflexivity.
Qed.
Lemma sync_again id w r : satisfied id w r -> sync_topic id w r = Some r.
Proof.
  intros (parts & source & t & R & G & F). unfold sync_topic. rewrite R, G. destruct (spec_eq _ _) as [E|E]; [reflexivity|].
  exfalso. apply E. unfold from_ in F. destruct (t_spec t) as [x e y]. cbn in *. subst x. reflexivity.
Qed.
Lemma sync_can id w r : (exists parts source, sp_replicas (w_spec w) = RHome parts source) -> exists r', sync_topic id w r = Some r'.
Proof.
  intros (parts & source & R). unfold sync_topic. rewrite R. destruct (get (w_key w) (r_topics r)); [destruct (spec_eq _ _)|]; eauto.
Qed.
Lemma spec_satisfied id w r r' : (forall j, option_map t_spec (get j (r_topics r')) = option_map t_spec (get j (r_topics r))) ->
  satisfied id w r -> satisfied id w r'.
Proof.
  intros H (parts & source & t & R & G & F). specialize (H (w_key w)). rewrite G in H. destruct (get (w_key w) (r_topics r')) as [t'|] eqn:G'; [|discriminate].
  injection H as H. exists parts, source, t'. split; [exact R|]. split; [exact G'|]. unfold from_. rewrite H. exact F.
Qed.

(** [follows]: what [in_sync] says, for the message [m]. *)
Definition follows (m : list wrapper) (id : name) (r : remote) : Prop :=
  (forall w, In w m -> satisfied id w r)
  /\ (forall k t, get k (r_topics r) = Some t -> mirror_of id t -> exists w, In w m /\ w_key w = k).
Lemma follows_sync h g r : home_ok h -> follows (exports h (g_remote g)) (g_id g) r <-> in_sync h g r.
Proof.
  intros K. split; intros [F1 F2]; split.
  - intros k w parts source T R. pose proof (told_key _ _ _ _ T) as <-. apply export_told in T; [|exact K].
    destruct (F1 _ T) as (p & s & t & R' & G & F). rewrite R in R'. injection R' as -> ->. eauto.
  - intros k t G M. destruct (F2 _ _ G M) as [w [I <-]]. exists w. apply export_told; assumption.
  - intros w I. destruct (exports_home _ _ _ I) as (p & s & R). apply export_told in I; [|exact K].
    destruct (F1 _ _ _ _ I R) as (t & G & F). exists p, s, t. auto.
  - intros k t G M. destruct (F2 _ _ G M) as [w T]. pose proof (told_key _ _ _ _ T) as <-. exists w. split; [apply export_told; assumption|reflexivity].
Qed.
Lemma spec_mirror id r r' : (forall j, option_map t_spec (get j (r_topics r')) = option_map t_spec (get j (r_topics r))) ->
  forall k t', get k (r_topics r') = Some t' -> mirror_of id t' -> exists t, get k (r_topics r) = Some t /\ mirror_of id t.
Proof.
  intros H k t' G M. specialize (H k). rewrite G in H. destruct (get k (r_topics r)) as [t|]; [|discriminate]. injection H as H.
  exists t. split; [reflexivity|]. unfold mirror_of in *. rewrite <- H. exact M.
Qed.
Lemma spec_follows m id r r' : (forall j, option_map t_spec (get j (r_topics r')) = option_map t_spec (get j (r_topics r))) ->
  follows m id r -> follows m id r'.
Proof.
  intros H [F1 F2]. split; [intros w I; exact (spec_satisfied _ _ _ _ H (F1 _ I))|].
  intros k t G M. destruct (spec_mirror id r r' H _ _ G M) as (t0 & G0 & M0). exact (F2 _ _ G0 M0).
Qed.

(** * The invariant of a calm run *)
Section Calm.
  Variables (h : home) (g : registration) (D : Z).
  Hypothesis HK : home_ok h.
  Let cur := exports h (g_remote g).

  Definition progress (ds : list name) (ws : list wrapper) (r : remote) : Prop :=
    (forall k, In k ds -> listed k cur = false)
    /\ (forall k t, get k (r_topics r) = Some t -> mirror_of (g_id g) t -> listed k cur = true \/ In k ds)
    /\ incl ws cur /\ (forall w, In w cur -> In w ws \/ satisfied (g_id g) w r).
  Definition base (s : sys) : Prop :=
    y_home s = h /\ remote_ok (y_remote s) /\ home_of (y_remote s) = Some g /\ (forall c, y_conn s = Some c -> c_reg c = g).
  Definition stale (s : sys) (olds : list (list wrapper)) : Prop :=
    y_done s + zlen olds + match y_work s with Some _ => 1 | None => 0 end <= D.
  Definition during (s : sys) : Prop :=
    y_done s <= D /\ exists ds ws, y_work s = Some (g, map TDelete ds ++ map TSync ws) /\ progress ds ws (y_remote s).
  Definition settled (s : sys) : Prop :=
    follows cur (g_id g) (y_remote s) /\ (y_work s = None \/ exists ws, incl ws cur /\ y_work s = Some (g, map TSync ws)).
  Definition Inv (s : sys) : Prop :=
    base s /\ exists olds news, queue s = olds ++ news /\ Forall (eq cur) news
      /\ (stale s olds \/ olds = [] /\ (during s \/ settled s)).

  Lemma progress_spec ds ws r r' : (forall j, option_map t_spec (get j (r_topics r')) = option_map t_spec (get j (r_topics r))) ->
    progress ds ws r -> progress ds ws r'.
  Proof.
    intros H (P1 & P2 & P3 & P4). split; [exact P1|]. split.
    - intros k t G M. destruct (spec_mirror _ _ _ H _ _ G M) as (t0 & G0 & M0). exact (P2 _ _ G0 M0).
    - split; [exact P3|]. intros w I. destruct (P4 _ I) as [J|J]; [left; exact J|right; exact (spec_satisfied _ _ _ _ H J)].
  Qed.
  Lemma progress_start r : remote_ok r -> exists ds, plan (g_id g) r cur = map TDelete ds ++ map TSync cur /\ progress ds cur r.
  Proof.
    intros N. eexists. split; [reflexivity|]. split; [|split; [|split]].
    - intros k I. apply filter_In in I as [_ I]. apply Bool.negb_true_iff in I. exact I.
    - intros k t G M. destruct (listed k cur) eqn:L; [left; reflexivity|]. right. apply filter_In. rewrite L.
      split; [apply (mine_iff (g_id g)); eauto|reflexivity].
    - apply incl_refl.
    - auto.
  Qed.
  Lemma progress_delete k ds ws r : progress (k :: ds) ws r -> progress ds ws (remove k r).
  Proof.
    intros (P1 & P2 & P3 & P4). pose proof (P1 k (or_introl eq_refl)) as L. split; [|split; [|split]].
    - intros j I. apply P1. right. exact I.
    - intros j t. unfold remove. cbn [r_topics]. rewrite get_del. destruct (same k j) eqn:E; [discriminate|]. intros G M.
      destruct (P2 _ _ G M) as [J|[J|J]]; [left; exact J| |right; exact J]. subst j. rewrite same_refl in E. discriminate E.
    - exact P3.
    - intros w I. destruct (P4 _ I) as [J|(p & b & t & R & G & F)]; [left; exact J|]. right. exists p, b, t. split; [exact R|]. split; [|exact F].
      unfold remove. cbn [r_topics]. rewrite get_del. destruct (same k (w_key w)) eqn:E; [|exact G].
      apply same_iff in E. exfalso. rewrite (proj2 (listed_iff k cur)) in L; [discriminate L|]. exists w. auto.
  Qed.
  Lemma progress_sync w ws r r' : progress [] (w :: ws) r -> sync_topic (g_id g) w r = Some r' -> progress [] ws r'.
  Proof.
    intros (P1 & P2 & P3 & P4) S. assert (W : In w cur) by (apply P3; left; reflexivity). split; [intros k []|]. split; [|split].
    - intros k t G M. left. destruct (same (w_key w) k) eqn:E; [apply same_iff in E; apply listed_iff; exists w; auto|].
      pose proof (execute_other (g_id g) (TSync w) r r' k S (proj1 (same_false _ _) E)) as [O _]. rewrite O in G.
      destruct (P2 _ _ G M) as [J|[]]. exact J.
    - intros x I. apply P3. right. exact I.
    - intros x I. destruct (P4 _ I) as [[<-|J]|J]; [right; exact (sync_satisfies _ _ _ _ S)|left; exact J|].
      destruct (same (w_key w) (w_key x)) eqn:E.
      + apply same_iff in E. pose proof (unique_key cur w x (exports_keys h _ (proj1 HK)) W I E) as <-. right. exact (sync_satisfies _ _ _ _ S).
      + right. destruct J as (p & b & t & R & G & F). exists p, b, t. split; [exact R|]. split; [|exact F].
        pose proof (execute_other (g_id g) (TSync w) r r' (w_key x) S (proj1 (same_false _ _) E)) as [O _]. rewrite O. exact G.
  Qed.
  Lemma progress_end r : progress [] [] r -> follows cur (g_id g) r.
  Proof.
    intros (P1 & P2 & P3 & P4). split; [intros w I; destruct (P4 _ I) as [[]|J]; exact J|].
    intros k t G M. destruct (P2 _ _ G M) as [J|[]]. apply listed_iff, J.
  Qed.
  Lemma follows_plan r : remote_ok r -> follows cur (g_id g) r -> plan (g_id g) r cur = map TSync cur.
  Proof.
    intros N [_ F]. unfold plan. replace (filter (fun k => negb (listed k cur)) (mine (g_id g) r)) with (@nil name); [reflexivity|].
    symmetry. assert (A : forall k, In k (mine (g_id g) r) -> listed k cur = true).
    { intros k I. apply mine_iff in I as (t & G & M); [|exact N]. apply listed_iff, (F k t G M). }
    revert A. induction (mine (g_id g) r) as [|k l IH]; intros A; [reflexivity|]. cbn [filter]. rewrite (A k (or_introl eq_refl)). cbn [negb].
    apply IH. intros j I. apply A. right. exact I.
  Qed.

  Lemma zlen_nil' {A} : zlen (@nil A) = 0. Proof. reflexivity. Qed.
  Lemma zlen_cons' {A} (x : A) l : zlen (x :: l) = 1 + zlen l.
  Proof. unfold zlen. cbn [length]. lia. Qed.
  Lemma zlen_pos {A} (l : list A) : 0 <= zlen l. Proof. unfold zlen. lia. Qed.

  Lemma Inv_step s m s' : calm m -> Inv s -> step s m = Some s' -> Inv s'.
  Proof.
    intros Q (B & olds & news & E & F & I) S. destruct B as (B1 & B2 & B3 & B4). destruct m as [?|?|k a|allowed|ok| | |o]; try destruct Q; cbn [step] in S.
    - (* Reconcile *)
      injection S as <-. split; [unfold base; cbn; repeat split; auto; [apply reconcile_ok, B2|unfold home_of; rewrite reconcile_mirrors; exact B3]|].
      exists olds, news. split; [exact E|]. split; [exact F|]. destruct I as [I|[I0 [[I1 (ds & ws & W & P)]|[I1 I2]]]].
      + left. exact I.
      + right. split; [exact I0|]. left. split; [exact I1|]. exists ds, ws. split; [exact W|].
        exact (progress_spec _ _ _ _ (reconcile_spec k a (y_remote s)) P).
      + right. split; [exact I0|]. right. split; [exact (spec_follows _ _ _ _ (reconcile_spec k a (y_remote s)) I1)|exact I2].
    - (* Connect *)
      destruct (y_conn s) eqn:C; [discriminate|]. destruct (y_work s) eqn:W; [discriminate|]. rewrite B3 in S. injection S as <-.
      split; [unfold base; cbn; repeat split; auto; intros c [= <-]; reflexivity|]. exists [], []. split; [reflexivity|]. split; [constructor|].
      destruct I as [I|[I0 [[I1 (ds & ws & W' & P)]|[I1 I2]]]].
      + left. unfold stale in *. rewrite W in I. cbn. pose proof (zlen_pos olds). lia.
      + rewrite W in W'. discriminate W'.
      + right. split; [reflexivity|]. right. split; [exact I1|]. left. reflexivity.
    - (* Send *)
      destruct (y_conn s) as [[g' b q]|] eqn:C; [|discriminate]. pose proof (B4 _ eq_refl) as G. cbn [c_reg] in G. subst g'.
      destruct b; [|discriminate]. destruct (negb (h_changed (y_home s))).
      + injection S as <-. split; [unfold base; rewrite C; repeat split; auto|]. exists olds, news. auto.
      + unfold queue in E. rewrite C in E. cbn [c_queue] in E. destruct (get (g_remote g) (h_mirrors (y_home s))).
        * injection S as <-. split; [unfold base; cbn; repeat split; auto; intros c [= <-]; reflexivity|].
          exists olds, (news ++ [cur]). unfold queue. cbn [y_conn c_queue]. rewrite E, B1, app_assoc. split; [reflexivity|].
          split; [apply Forall_app; split; [exact F|constructor; [reflexivity|constructor]]|exact I].
        * injection S as <-. split; [unfold base; cbn; repeat split; auto; intros c [= <-]; reflexivity|]. exists olds, news. auto.
    - (* Cut *)
      injection S as <-. split; [unfold base; cbn; repeat split; auto; intros c; discriminate|]. exists [], []. split; [reflexivity|]. split; [constructor|].
      destruct I as [I|[I0 I]].
      + left. unfold stale in *. cbn. pose proof (zlen_pos olds). lia.
      + right. split; [reflexivity|exact I].
    - (* Take *)
      destruct (y_conn s) as [[g' b [|msg q]]|] eqn:C; try discriminate. destruct (y_work s) eqn:W; [discriminate|].
      pose proof (B4 _ eq_refl) as G. cbn [c_reg] in G. subst g'. injection S as <-. unfold queue in E. rewrite C in E. cbn [c_queue] in E.
      assert (B : forall w, base (mkSys (y_home s) (y_remote s) (Some (mkConn g b q)) w (y_done s))).
      { intros w. unfold base; cbn; repeat split; auto; intros c [= <-]; reflexivity. }
      split; [apply B|]. destruct olds as [|o olds].
      + cbn [app] in E. subst news. inversion F as [|? ? F1 F2]; subst. exists [], q. split; [reflexivity|]. split; [exact F2|]. right. split; [reflexivity|].
        destruct (progress_start (y_remote s) B2) as (ds & P1 & P2).
        destruct I as [I|[_ [[_ (ds' & ws' & W' & _)]|[I1 I2]]]].
        * left. split; [unfold stale in I; rewrite W in I; cbn in *; lia|]. exists ds, cur. cbn [y_work y_remote]. rewrite P1. auto.
        * rewrite W in W'. discriminate W'.
        * right. split; [exact I1|]. right. exists cur. cbn [y_work]. rewrite (follows_plan _ B2 I1). split; [apply incl_refl|reflexivity].
      + cbn [app] in E. injection E as -> ->. exists olds, news. split; [reflexivity|]. split; [exact F|].
        destruct I as [I|[I _]]; [|discriminate]. left. unfold stale in *. rewrite W in I. cbn. rewrite zlen_cons' in I. lia.
    - (* Work *)
      destruct (y_work s) as [[g' [|t rest]]|] eqn:W; [| |discriminate].
      + rewrite B3 in S. destruct o; injection S as <-.
        * split; [unfold base; cbn; repeat split; auto|]. exists olds, news. split; [exact E|]. split; [exact F|].
          destruct I as [I|[I0 [[I1 (ds & ws & W' & P)]|[I1 I2]]]].
          -- left. unfold stale in *. rewrite W in I. cbn. lia.
          -- right. split; [exact I0|]. right. rewrite W in W'. injection W' as -> W'. destruct ds; [|discriminate]. destruct ws; [|discriminate].
             split; [exact (progress_end _ P)|left; reflexivity].
          -- right. split; [exact I0|]. right. split; [exact I1|left; reflexivity].
        * split; [unfold base; cbn; repeat split; auto; intros c; discriminate|]. exists [], []. split; [reflexivity|]. split; [constructor|].
          destruct I as [I|[I0 [[I1 (ds & ws & W' & P)]|[I1 I2]]]].
          -- left. unfold stale in *. rewrite W in I. cbn. pose proof (zlen_pos olds). lia.
          -- left. unfold stale. cbn. lia.
          -- right. split; [reflexivity|]. right. split; [exact I1|left; reflexivity].
        * split; [unfold base; cbn; repeat split; auto; intros c; discriminate|]. exists [], []. split; [reflexivity|]. split; [constructor|].
          destruct I as [I|[I0 [[I1 (ds & ws & W' & P)]|[I1 I2]]]].
          -- left. unfold stale in *. rewrite W in I. cbn. pose proof (zlen_pos olds). lia.
          -- left. unfold stale. cbn. lia.
          -- right. split; [reflexivity|]. right. split; [exact I1|left; reflexivity].
      + assert (L : forall r, remote_ok r -> home_of r = Some g -> (follows cur (g_id g) (y_remote s) -> settled s -> follows cur (g_id g) r) ->
                 Inv (mkSys (y_home s) r None None (y_done s))).
        { intros r R1 R2 R3. split; [unfold base; cbn; repeat split; auto; intros c; discriminate|]. exists [], []. split; [reflexivity|]. split; [constructor|].
          destruct I as [I|[I0 [[I1 (ds & ws & W' & P)]|[I1 I2]]]].
          - left. unfold stale in *. rewrite W in I. cbn. pose proof (zlen_pos olds). lia.
          - left. unfold stale. cbn. lia.
          - right. split; [reflexivity|]. right. split; [cbn [y_remote]; apply R3; [exact I1|split; [exact I1|exact I2]]|left; reflexivity]. }
        assert (T : settled s -> exists w ws, t = TSync w /\ rest = map TSync ws /\ g' = g /\ In w cur /\ incl ws cur).
        { intros [_ [I2|[ws [I2 I3]]]]; [rewrite W in I2; discriminate I2|]. rewrite W in I3. injection I3 as -> I3.
          destruct ws as [|w ws]; [discriminate|]. injection I3 as -> ->. exists w, ws. repeat split; auto; [apply I2; left; reflexivity|].
          intros x X. apply I2. right. exact X. }
        destruct (execute (g_id g') t (y_remote s)) as [r|] eqn:X.
        * assert (R1 : remote_ok r) by (exact (execute_ok _ _ _ _ B2 X)).
          assert (R2 : home_of r = Some g) by (unfold home_of; rewrite (execute_mirrors _ _ _ _ X); exact B3).
          assert (R3 : settled s -> r = y_remote s).
          { intros Z. destruct (T Z) as (w & ws & -> & _ & -> & U & _). cbn [execute] in X.
            rewrite (sync_again _ _ _ (proj1 (proj1 Z) w U)) in X. congruence. }
          destruct o; injection S as <-.
          -- split; [unfold base; cbn; repeat split; auto|]. exists olds, news. split; [exact E|]. split; [exact F|].
             destruct I as [I|[I0 [[I1 (ds & ws & W' & P)]|[I1 I2]]]].
             ++ left. unfold stale in *. rewrite W in I. exact I.
             ++ right. split; [exact I0|]. left. split; [exact I1|]. rewrite W in W'. injection W' as -> W'. cbn [y_work y_remote].
                destruct ds as [|k ds].
                ** destruct ws as [|w ws]; [discriminate|]. cbn in W'. injection W' as -> ->. exists [], ws. split; [reflexivity|].
                   exact (progress_sync _ _ _ _ P X).
                ** cbn in W'. injection W' as -> ->. exists ds, ws. split; [reflexivity|]. cbn [execute] in X. injection X as <-.
                   exact (progress_delete _ _ _ _ P).
             ++ right. split; [exact I0|]. right. assert (Z : settled s) by (split; assumption). rewrite (R3 Z).
                destruct (T Z) as (w & ws & -> & -> & -> & U & V). split; [exact I1|]. right. exists ws. split; [exact V|reflexivity].
          -- apply L; auto.
          -- apply L; auto. intros _ Z. rewrite (R3 Z). apply Z.
        * assert (S' : Some (mkSys (y_home s) (y_remote s) None None (y_done s)) = Some s') by (destruct o; exact S).
          injection S' as <-. apply L; auto.
  Qed.

  Lemma Inv_run l : forall s s', Forall calm l -> Inv s -> run s l = Some s' -> Inv s'.
  Proof.
    induction l as [|m l IH]; cbn [run]; intros s s' F I R; [injection R as <-; exact I|]. inversion F as [|? ? F1 F2]; subst.
    destruct (step s m) as [s1|] eqn:S; [|discriminate]. exact (IH s1 s' F2 (Inv_step _ _ _ F1 I S) R).
  Qed.
  Lemma Inv_done s : Inv s -> D < y_done s -> follows cur (g_id g) (y_remote s).
  Proof.
    intros (_ & olds & news & _ & _ & [I|[_ [[I _]|[I _]]]]) L; [| |exact I].
    - unfold stale in I. pose proof (zlen_pos olds). destruct (y_work s); lia.
    - lia.
  Qed.
End Calm.
