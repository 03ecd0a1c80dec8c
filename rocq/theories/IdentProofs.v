(** Proofs about the ids of SPUs. *)
From Coq Require Import ZArith List Bool Lia.
Import ListNotations.
From Verif Require Import Base NameModel NameSpec NameProofs IdentModel IdentSpec.
Open Scope Z_scope.

Lemma same_true a b : same a b = true <-> a = b.
Proof. unfold same. destruct (list_eq_dec Z.eq_dec a b); split; congruence. Qed.
Lemma same_false a b : same a b = false <-> a <> b.
Proof. unfold same. destruct (list_eq_dec Z.eq_dec a b); split; congruence. Qed.
Lemma same_refl a : same a a = true.
Proof. now apply same_true. Qed.

Lemma in_indices g i : In i (indices g) <-> 0 <= i < g_replicas g.
Proof.
  unfold indices. rewrite in_map_iff. split.
  - intros (n & <- & I). apply in_seq in I. lia.
  - intros H. exists (Z.to_nat i). split; [lia|]. apply in_seq. lia.
Qed.
Lemma wrap_s_range x : - 2 ^ 31 <= wrap_s 32 x < 2 ^ 31.
Proof. unfold wrap_s. pose proof (Z.mod_pos_bound (x + 2 ^ (32 - 1)) (2 ^ 32)). lia. Qed.
Lemma wrap_s_id x : - 2 ^ 31 <= x < 2 ^ 31 -> wrap_s 32 x = x.
Proof. intros H. unfold wrap_s. rewrite Z.mod_small; lia. Qed.
Lemma wrap_s_inj x y : wrap_s 32 x = wrap_s 32 y -> (x - y) mod 2 ^ 32 = 0.
Proof.
  unfold wrap_s. intros H. assert (E : (x + 2 ^ (32 - 1)) mod 2 ^ 32 = (y + 2 ^ (32 - 1)) mod 2 ^ 32) by lia.
  replace (x - y) with ((x + 2 ^ (32 - 1)) - (y + 2 ^ (32 - 1))) by lia. rewrite Zminus_mod, E, Z.sub_diag. reflexivity.
Qed.
Lemma ids_apart min i j : 0 <= i < 2 ^ 16 -> 0 <= j < 2 ^ 16 -> compute_spu_id min i = compute_spu_id min j -> i = j.
Proof.
  intros Hi Hj E. apply wrap_s_inj in E. replace (i + min - (j + min)) with (i - j) in E by lia.
  apply Z.mod_divide in E; [|lia]. destruct E as (k & E). nia.
Qed.
Lemma names_apart g h i j : 0 <= i < 2 ^ 16 -> 0 <= j < 2 ^ 16 -> print_replica g i = print_replica h j -> g = h /\ i = j.
Proof. intros Hi Hj. apply replica_injective; unfold in_u; lia. Qed.

(** * [put] *)

Lemma in_put s l x : In x (put s l) -> (exists o, x = mkSpu (s_name s) (s_id s) (s_custom s) (s_owner s) o) \/ (In x l /\ s_name x <> s_name s).
Proof.
  unfold put. destruct (existsb _ l) eqn:E.
  - intros I. apply in_map_iff in I as (y & E2 & I). destruct (same (s_name y) (s_name s)) eqn:S; [left; eauto|]. subst. right. split; [exact I | now apply same_false].
  - intros I. apply in_app_or in I as [I | [<- | []]].
    + right. split; [exact I|]. intros N. assert (X : existsb (fun x => same (s_name x) (s_name s)) l = true); [|congruence].
      apply existsb_exists. exists x. split; [exact I | now apply same_true].
    + left. exists (s_online s). now destruct s.
Qed.
Lemma put_other s l x : In x l -> s_name x <> s_name s -> In x (put s l).
Proof.
  intros I N. unfold put. destruct (existsb _ l); [|apply in_or_app; now left]. apply in_map_iff. exists x. apply same_false in N. rewrite N. now split.
Qed.
Lemma put_there s l : exists o, In (mkSpu (s_name s) (s_id s) (s_custom s) (s_owner s) o) (put s l).
Proof.
  unfold put. destruct (existsb _ l) eqn:E.
  - apply existsb_exists in E as (y & I & E). exists (s_online y). apply in_map_iff. exists y. now rewrite E.
  - exists (s_online s). apply in_or_app. right. left. now destruct s.
Qed.
Lemma put_names s l : map s_name (put s l) = if existsb (fun x => same (s_name x) (s_name s)) l then map s_name l else map s_name l ++ [s_name s].
Proof.
  unfold put. destruct (existsb _ l); [|now rewrite map_app]. rewrite map_map. apply map_ext. intros x. destruct (same (s_name x) (s_name s)) eqn:S; [|reflexivity].
  apply same_true in S. symmetry. exact S.
Qed.
Lemma put_nodup s l : NoDup (map s_name l) -> NoDup (map s_name (put s l)).
Proof.
  intros N. rewrite put_names. destruct (existsb _ l) eqn:E; [exact N|]. apply NoDup_Add with (l := map s_name l) (a := s_name s).
  - rewrite <- (app_nil_r (map s_name l)) at 1. apply Add_app.
  - split; [exact N|]. intros I. apply in_map_iff in I as (x & E2 & I). assert (X : existsb (fun x => same (s_name x) (s_name s)) l = true); [|congruence].
    apply existsb_exists. exists x. split; [exact I | now apply same_true].
Qed.

(** * The invariant of careful histories *)

Definition managed (w : list group) (s : spu) : Prop :=
  exists g i, In g w /\ 0 <= i < g_replicas g /\ s_name s = print_replica (g_name g) i /\ s_id s = compute_spu_id (g_min g) i /\ s_owner s = Some (g_uid g).
Definition foreign (gs : list group) (name : bytes) (id : Z) : Prop :=
  forall g, In g gs -> ~ has_id g id /\ ~ has_name g name.
Definition other (gs : list group) (s : spu) : Prop := s_owner s = None /\ foreign gs (s_name s) (s_id s).

Record good (gs : list group) (uid : Z) : Prop := {
  gd_small : forall g, In g gs -> 0 <= g_replicas g < 2 ^ 16;
  gd_uids : forall g, In g gs -> g_uid g < uid;
  gd_uid : forall g h, In g gs -> In h gs -> g_uid g = g_uid h -> g = h;
  gd_name : forall g h, In g gs -> In h gs -> g_name g = g_name h -> g = h;
  gd_ids : forall g h id, In g gs -> In h gs -> has_id g id -> has_id h id -> g = h }.
Record fine (gs : list group) (l : list spu) : Prop := {
  fi_names : NoDup (map s_name l);
  fi_kind : forall s, In s l -> managed gs s \/ other gs s;
  fi_ids : forall s t, In s l -> In t l -> other gs s -> other gs t -> s_id s = s_id t -> s_name s = s_name t }.
Record inv (w : world) : Prop := {
  in_good : good (w_groups w) (w_uid w);
  in_fine : fine (w_groups w) (w_spus w);
  in_flight : forall f, In f (w_flight w) -> foreign (w_groups w) (fst f) (snd f) /\ forall s, In s (w_spus w) -> s_name s <> fst f /\ s_id s <> snd f;
  in_one : (length (w_flight w) <= 1)%nat }.

Lemma nodup_inj {A B} (f : A -> B) l x y : NoDup (map f l) -> In x l -> In y l -> f x = f y -> x = y.
Proof.
  induction l as [|a l IH]; intros N I J E; [destruct I|]. cbn [map] in N. inversion N as [|? ? N1 N2]; subst.
  destruct I as [<- | I], J as [<- | J]; auto.
  - destruct N1. rewrite E. now apply in_map.
  - destruct N1. rewrite <- E. now apply in_map.
Qed.
Lemma inj_nodup {A B} (f : A -> B) l : NoDup l -> (forall x y, In x l -> In y l -> f x = f y -> x = y) -> NoDup (map f l).
Proof.
  induction l as [|a l IH]; intros N H; [constructor|]. inversion N as [|? ? N1 N2]; subst. cbn [map]. constructor.
  - intros I. apply in_map_iff in I as (y & E & I). apply N1. rewrite (H a y); [exact I | now left | now right | now symmetry].
  - apply IH; [exact N2|]. intros x y I J. apply H; now right.
Qed.
Lemma nodup_of_map {A B} (f : A -> B) l : NoDup (map f l) -> NoDup l.
Proof. apply NoDup_map_inv. Qed.

Lemma unique_of gs uid l : good gs uid -> fine gs l -> NoDup (map s_id l).
Proof.
  intros G F. apply inj_nodup; [apply (nodup_of_map s_name), (fi_names _ _ F)|].
  intros s t I J E. apply (nodup_inj s_name l); try assumption; [apply (fi_names _ _ F)|].
  destruct (fi_kind _ _ F s I) as [(g & i & A1 & A2 & A3 & A4 & A5) | S], (fi_kind _ _ F t J) as [(h & j & B1 & B2 & B3 & B4 & B5) | T].
  - assert (g = h) as <-.
    { apply (gd_ids _ _ G g h (s_id s)); try assumption; [exists i | exists j; rewrite E]; auto. }
    pose proof (gd_small _ _ G g A1). assert (i = j) as <-; [|congruence]. apply (ids_apart (g_min g)); [lia | lia | congruence].
  - exfalso. destruct T as (_ & T). apply (proj1 (T g A1)). exists i. split; [exact A2 | congruence].
  - exfalso. destruct S as (_ & S). apply (proj1 (S h B1)). exists j. split; [exact B2 | congruence].
  - apply (fi_ids _ _ F s t); auto.
Qed.

Lemma put_managed gs uid l g i : good gs uid -> fine gs l -> In g gs -> 0 <= i < g_replicas g -> fine gs (put (as_spu g i) l).
Proof.
  intros G F I L.
  assert (NK : forall o, managed gs (mkSpu (print_replica (g_name g) i) (compute_spu_id (g_min g) i) false (Some (g_uid g)) o)).
  { intros o. exists g, i. repeat split; auto; apply L. }
  constructor.
  - apply put_nodup, (fi_names _ _ F).
  - intros s J. apply in_put in J as [(o & ->) | (J & _)]; [left; apply NK | now apply (fi_kind _ _ F)].
  - intros s t J K S T E. apply in_put in J as [(o & ->) | (J & _)]; [destruct S as (S & _); discriminate|].
    apply in_put in K as [(o & ->) | (K & _)]; [destruct T as (T & _); discriminate|]. now apply (fi_ids _ _ F).
Qed.
Lemma put_flight gs l g i (f : bytes * Z) : In g gs -> 0 <= i < g_replicas g -> foreign gs (fst f) (snd f) ->
  (forall s, In s l -> s_name s <> fst f /\ s_id s <> snd f) -> forall s, In s (put (as_spu g i) l) -> s_name s <> fst f /\ s_id s <> snd f.
Proof.
  intros I L Fo H s J. apply in_put in J as [(o & ->) | (J & _)]; [|now apply H]. cbn [s_name s_id as_spu]. destruct (Fo g I) as (F1 & F2).
  split; intros E; [apply F2 | apply F1]; exists i; now split.
Qed.
Lemma sync_fine gs uid (f : list (bytes * Z)) l : good gs uid -> fine gs l ->
  (forall x, In x f -> foreign gs (fst x) (snd x) /\ forall s, In s l -> s_name s <> fst x /\ s_id s <> snd x) ->
  fine gs (sync_spu gs l) /\ forall x, In x f -> forall s, In s (sync_spu gs l) -> s_name s <> fst x /\ s_id s <> snd x.
Proof.
  intros G. unfold sync_spu.
  assert (A : forall s, In s (flat_map (fun g => map (as_spu g) (indices g)) gs) -> exists g i, In g gs /\ 0 <= i < g_replicas g /\ s = as_spu g i).
  { intros s I. apply in_flat_map in I as (g & I & J). apply in_map_iff in J as (i & <- & J). apply in_indices in J. eauto. }
  revert l A. generalize (flat_map (fun g => map (as_spu g) (indices g)) gs) as todo. induction todo as [|s todo IH]; intros l A F H.
  - split; [exact F|]. intros x I. apply (proj2 (H x I)).
  - cbn [fold_left]. destruct (A s (or_introl eq_refl)) as (g & i & I & L & ->). apply IH.
    + intros t J. apply A. now right.
    + now apply (put_managed gs uid).
    + intros x J. destruct (H x J) as (H1 & H2). split; [exact H1|]. apply (put_flight gs l g i x); assumption.
Qed.

Lemma set_status_same w g st : has_id (set_status st g) w <-> has_id g w.
Proof. reflexivity. Qed.

(** groups that differ in their status only *)
Definition retag (k : group -> status) (gs : list group) : list group := map (fun g => set_status (k g) g) gs.
Lemma in_retag k gs x : In x (retag k gs) <-> exists g, In g gs /\ x = set_status (k g) g.
Proof. unfold retag. rewrite in_map_iff. split; intros (g & A & B); exists g; split; auto. Qed.
Lemma good_retag k gs uid : good gs uid -> good (retag k gs) uid.
Proof.
  intros G. constructor.
  - intros x I. apply in_retag in I as (g & I & ->). exact (gd_small _ _ G g I).
  - intros x I. apply in_retag in I as (g & I & ->). exact (gd_uids _ _ G g I).
  - intros x y I J E. apply in_retag in I as (g & I & ->). apply in_retag in J as (h & J & ->). now rewrite (gd_uid _ _ G g h I J E).
  - intros x y I J E. apply in_retag in I as (g & I & ->). apply in_retag in J as (h & J & ->). now rewrite (gd_name _ _ G g h I J E).
  - intros x y id I J E1 E2. apply in_retag in I as (g & I & ->). apply in_retag in J as (h & J & ->). now rewrite (gd_ids _ _ G g h id I J E1 E2).
Qed.
Lemma foreign_retag k gs n id : foreign (retag k gs) n id <-> foreign gs n id.
Proof.
  split; intros F g I.
  - apply (F (set_status (k g) g)). apply in_retag. eauto.
  - apply in_retag in I as (h & I & ->). apply (F h I).
Qed.
Lemma other_retag k gs s : other (retag k gs) s <-> other gs s.
Proof. unfold other. now rewrite foreign_retag. Qed.
Lemma managed_retag k gs s : managed gs s -> managed (retag k gs) s.
Proof. intros (g & i & A & B). exists (set_status (k g) g), i. split; [apply in_retag; eauto | exact B]. Qed.
Lemma fine_retag k gs l : fine gs l -> fine (retag k gs) l.
Proof.
  intros F. constructor.
  - apply (fi_names _ _ F).
  - intros s I. destruct (fi_kind _ _ F s I) as [M | M]; [left; now apply managed_retag | right; exact (proj2 (other_retag k gs s) M)].
  - intros s t I J S T. exact (fi_ids _ _ F s t I J (proj1 (other_retag k gs s) S) (proj1 (other_retag k gs t) T)).
Qed.
Lemma check_retag name v gs : exists k, map (fun x => if same (g_name x) name then set_status v x else x) gs = retag k gs.
Proof.
  exists (fun x => if same (g_name x) name then v else g_status x). apply map_ext. intros x. destruct (same (g_name x) name); [reflexivity | now destruct x].
Qed.

(** fewer SPUs, and fewer groups *)
Lemma fine_filter gs p l : fine gs l -> fine gs (filter p l).
Proof.
  intros F. constructor.
  - pose proof (fi_names _ _ F) as N. induction l as [|a l IH]; [constructor|]. cbn [map] in N. inversion N as [|? ? N1 N2]; subst. cbn [filter].
    assert (N3 : NoDup (map s_name (filter p l))).
    { apply IH; [|exact N2]. constructor; [exact N2 | intros s I; apply (fi_kind _ _ F); now right | intros s t I J; apply (fi_ids _ _ F); now right]. }
    destruct (p a); [|exact N3]. cbn [map]. constructor; [|exact N3]. intros I. apply N1. apply in_map_iff in I as (x & E & I). apply filter_In in I as (I & _). rewrite <- E. now apply in_map.
  - intros s I. apply filter_In in I as (I & _). now apply (fi_kind _ _ F).
  - intros s t I J. apply filter_In in I as (I & _). apply filter_In in J as (J & _). now apply (fi_ids _ _ F).
Qed.
Lemma good_filter p gs uid : good gs uid -> good (filter p gs) uid.
Proof.
  intros G. constructor.
  - intros g I. apply filter_In in I as (I & _). now apply (gd_small _ _ G).
  - intros g I. apply filter_In in I as (I & _). now apply (gd_uids _ _ G).
  - intros g h I J. apply filter_In in I as (I & _). apply filter_In in J as (J & _). now apply (gd_uid _ _ G).
  - intros g h I J. apply filter_In in I as (I & _). apply filter_In in J as (J & _). now apply (gd_name _ _ G).
  - intros g h id I J. apply filter_In in I as (I & _). apply filter_In in J as (J & _). now apply (gd_ids _ _ G).
Qed.
Lemma foreign_fewer p gs n id : foreign gs n id -> foreign (filter p gs) n id.
Proof. intros F g I. apply filter_In in I as (I & _). now apply F. Qed.

Lemma find_group_some name gs g : find_group name gs = Some g -> In g gs /\ g_name g = name.
Proof. intros E. apply find_some in E as (I & E). split; [exact I | now apply same_true]. Qed.
Lemma find_group_none name gs : find_group name gs = None -> forall g, In g gs -> g_name g <> name.
Proof. intros E g I. apply same_false. exact (find_none _ _ E g I). Qed.

Definition is_owned (g : group) (s : spu) : bool := match s_owner s with Some o => o =? g_uid g | None => false end.

Lemma deleted_fine gs uid l g : good gs uid -> fine gs l -> In g gs ->
  fine (filter (fun x => negb (same (g_name x) (g_name g))) gs) (filter (fun s => negb (is_owned g s)) l).
Proof.
  intros G F I. set (p := fun x => negb (same (g_name x) (g_name g))).
  pose proof (fine_filter gs (fun s => negb (is_owned g s)) l F) as F2.
  assert (K : forall s, In s (filter (fun s => negb (is_owned g s)) l) -> managed (filter p gs) s \/ (other gs s /\ other (filter p gs) s)).
  { intros s J. pose proof (fi_kind _ _ F2 s J) as [(h & i & A & B & C & D & E) | S].
    - left. exists h, i. split; [|auto]. apply filter_In. split; [exact A|]. unfold p. apply negb_true_iff, same_false. intros N.
      pose proof (gd_name _ _ G h g A I N) as ->. apply filter_In in J as (_ & J). unfold is_owned in J. rewrite E, Z.eqb_refl in J. discriminate.
    - right. split; [exact S|]. destruct S as (S1 & S2). split; [exact S1 | now apply foreign_fewer]. }
  constructor.
  - apply (fi_names _ _ F2).
  - intros s J. destruct (K s J) as [M | (_ & O)]; auto.
  - intros s t J J2 S T E. destruct (K s J) as [(? & ? & ? & ? & ? & ? & O) | (S2 & _)]; [destruct S; congruence|].
    destruct (K t J2) as [(? & ? & ? & ? & ? & ? & O) | (T2 & _)]; [destruct T; congruence|]. now apply (fi_ids _ _ F2).
Qed.

Lemma foreign_more gs g n id : foreign gs n id -> ~ has_id g id -> ~ has_name g n -> foreign (gs ++ [g]) n id.
Proof. intros F A B h I. apply in_app_or in I as [I | [<- | []]]; auto. Qed.
Lemma foreign_back gs g n id : foreign (gs ++ [g]) n id -> foreign gs n id.
Proof. intros F h I. apply F, in_or_app. now left. Qed.

Lemma created_good gs uid name replicas min : good gs uid -> 0 <= replicas < 2 ^ 16 -> ~ In name (map g_name gs) ->
  (forall h id, In h gs -> has_id h id -> ~ has_id (mkGroup 0 name replicas min Init) id) -> good (gs ++ [mkGroup uid name replicas min Init]) (uid + 1).
Proof.
  intros G L N D. constructor.
  - intros g I. apply in_app_or in I as [I | [<- | []]]; [now apply (gd_small _ _ G) | exact L].
  - intros g I. apply in_app_or in I as [I | [<- | []]]; [pose proof (gd_uids _ _ G g I); lia | cbn; lia].
  - intros g h I J E. apply in_app_or in I as [I | [<- | []]], J as [J | [<- | []]]; [now apply (gd_uid _ _ G)| | |reflexivity]; cbn [g_uid] in E.
    + pose proof (gd_uids _ _ G g I). lia.
    + pose proof (gd_uids _ _ G h J). lia.
  - intros g h I J E. apply in_app_or in I as [I | [<- | []]], J as [J | [<- | []]]; [now apply (gd_name _ _ G)| | |reflexivity]; cbn [g_name] in E; destruct N.
    + rewrite <- E. now apply in_map.
    + rewrite E. now apply in_map.
  - intros g h id I J E1 E2. apply in_app_or in I as [I | [<- | []]], J as [J | [<- | []]]; [now apply (gd_ids _ _ G g h id)| | |reflexivity].
    + destruct (D g id I E1 E2).
    + destruct (D h id J E2 E1).
Qed.

Lemma step_inv w e : inv w -> careful w e -> inv (step w e).
Proof.
  intros [G F FL O] C. destruct e as [name replicas min | name | name | | name id | name id | name | id up |]; cbn [step].
  - destruct C as (L & N & D & S & T). destruct (find_group name (w_groups w)) as [g|] eqn:E.
    { apply find_group_some in E as (I & E). destruct N. rewrite <- E. now apply in_map. }
    constructor; cbn [w_groups w_spus w_uid w_flight].
    + now apply created_good.
    + constructor; [apply (fi_names _ _ F)| |].
      * intros s I. destruct (fi_kind _ _ F s I) as [(g & i & A & B) | (A & B)].
        -- left. exists g, i. split; [apply in_or_app; now left | exact B].
        -- right. split; [exact A|]. destruct (S s I) as (S1 & S2). apply foreign_more; assumption.
      * intros s t I J (S1 & S2) (T1 & T2). apply (fi_ids _ _ F); try assumption; split; try assumption; now apply foreign_back in S2, T2.
    + intros f I. destruct (FL f I) as (A & B). split; [|exact B]. destruct (T f I) as (T1 & T2). apply foreign_more; assumption.
    + exact O.
  - destruct (find_group name (w_groups w)) as [g|] eqn:E; [|now constructor]. apply find_group_some in E as (I & <-).
    constructor; cbn [w_groups w_spus w_uid w_flight].
    + now apply good_filter.
    + apply (deleted_fine _ (w_uid w)); assumption.
    + intros f J. destruct (FL f J) as (A & B). split; [now apply foreign_fewer|]. intros s K. apply filter_In in K as (K & _). now apply B.
    + exact O.
  - destruct (existsb (same name) (w_pending w)); [|now constructor]. destruct (find_group name (w_groups w)) as [g|] eqn:E; [|now constructor].
    destruct (check_retag name (check g (w_spus w)) (w_groups w)) as (k & K). constructor; cbn [w_groups w_spus w_uid w_flight]; rewrite ?K.
    + now apply good_retag.
    + now apply fine_retag.
    + intros f J. destruct (FL f J) as (A & B). split; [exact (proj2 (foreign_retag k _ _ _) A) | exact B].
    + exact O.
  - destruct (sync_fine (w_groups w) (w_uid w) (w_flight w) (w_spus w) G F FL) as (A & B). constructor; cbn [w_groups w_spus w_uid w_flight]; auto.
    intros f J. split; [apply (FL f J) | now apply B].
  - destruct C as (C1 & C2). destruct (free name id (w_spus w)) eqn:E; [|now constructor]. constructor; cbn [w_groups w_spus w_uid w_flight]; try assumption.
    + rewrite C1. intros f [<- | []]. cbn [fst snd]. split; [exact C2|]. intros s I. unfold free in E. apply negb_true_iff, orb_false_iff in E as (E1 & E2). split; intros X.
      * assert (Y : existsb (fun s => same (s_name s) name) (w_spus w) = true); [|congruence]. apply existsb_exists. exists s. split; [exact I | now apply same_true].
      * assert (Y : existsb (fun s => s_id s =? id) (w_spus w) = true); [|congruence]. apply existsb_exists. exists s. split; [exact I | now apply Z.eqb_eq].
    + rewrite C1. cbn. lia.
  - destruct (existsb _ (w_flight w)) eqn:E; [|now constructor]. apply existsb_exists in E as ((n2, id2) & I & E). cbn [fst snd] in E.
    apply andb_true_iff in E as (E1 & E2). apply same_true in E1. apply Z.eqb_eq in E2. subst n2 id2. destruct (FL _ I) as (A & B). cbn [fst snd] in A, B.
    assert (FE : w_flight w = [(name, id)]).
    { destruct (w_flight w) as [|x [|y r]]; [destruct I | destruct I as [-> | []]; reflexivity | cbn in O; lia]. }
    constructor; cbn [w_groups w_spus w_uid w_flight]; try assumption.
    + assert (NO : forall s, In s (w_spus w) -> s_name s <> name) by (intros s J; apply (B s J)).
      constructor.
      * apply put_nodup, (fi_names _ _ F).
      * intros s J. apply in_put in J as [(o & ->) | (J & _)]; [right; split; [reflexivity | exact A] | now apply (fi_kind _ _ F)].
      * intros s t J K S T X. apply in_put in J as [(o & ->) | (J & _)], K as [(o2 & ->) | (K & _)].
        -- reflexivity.
        -- cbn [s_id] in X. destruct (proj2 (B t K)). now symmetry.
        -- cbn [s_id] in X. destruct (proj2 (B s J)). exact X.
        -- now apply (fi_ids _ _ F).
    + rewrite FE. cbn [filter fst snd]. rewrite same_refl, Z.eqb_refl. intros f [].
    + rewrite FE. cbn [filter fst snd]. rewrite same_refl, Z.eqb_refl. cbn. lia.
  - constructor; cbn [w_groups w_spus w_uid w_flight]; try assumption; [now apply fine_filter|].
    intros f J. destruct (FL f J) as (A & B). split; [exact A|]. intros s K. apply filter_In in K as (K & _). now apply B.
  - assert (R : forall s, s_name (report id up s) = s_name s /\ s_id (report id up s) = s_id s /\ s_owner (report id up s) = s_owner s).
    { intros s. unfold report. destruct (s_id s =? id); repeat split. }
    assert (RO : forall s, other (w_groups w) (report id up s) <-> other (w_groups w) s).
    { intros s. destruct (R s) as (R1 & R2 & R3). unfold other. rewrite R1, R2, R3. reflexivity. }
    constructor; cbn [w_groups w_spus w_uid w_flight]; try assumption.
    + constructor.
      * rewrite map_map. rewrite (map_ext _ s_name); [apply (fi_names _ _ F) | intros s; apply (R s)].
      * intros s I. apply in_map_iff in I as (x & <- & I). destruct (fi_kind _ _ F x I) as [(g & i & M) | S]; [left | right; now apply RO].
        exists g, i. destruct (R x) as (R1 & R2 & R3). rewrite R1, R2, R3. exact M.
      * intros s t I J S T. apply in_map_iff in I as (x & <- & I). apply in_map_iff in J as (y & <- & J). destruct (R x) as (R1 & R2 & _), (R y) as (R4 & R5 & _).
        rewrite R1, R2, R4, R5. apply (fi_ids _ _ F); try assumption; now apply RO.
    + intros f J. destruct (FL f J) as (A & B). split; [exact A|]. intros s K. apply in_map_iff in K as (x & <- & K). destruct (R x) as (R1 & R2 & _). rewrite R1, R2. now apply B.
  - constructor; cbn [w_groups w_spus w_uid w_flight]; try assumption; [intros f [] | cbn; lia].
Qed.
Lemma start_inv : inv start.
Proof. constructor; cbn; try constructor; cbn; try (intros; contradiction); try constructor; lia. Qed.
Lemma run_inv l : forall w, inv w -> carefully w l -> inv (run w l).
Proof. induction l as [|e l IH]; intros w I C; [exact I|]. destruct C as (C1 & C2). cbn [run fold_left]. apply IH; [now apply step_inv | exact C2]. Qed.
