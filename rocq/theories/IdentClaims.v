(** Claims about the ids of SPUs. *)
From Coq Require Import ZArith List Bool Lia.
Import ListNotations.
From Verif Require Import Base NameModel NameSpec NameProofs IdentModel IdentSpec IdentProofs.
Open Scope Z_scope.

Lemma ids_unique l : carefully start l -> unique (run start l).
Proof. intros C. destruct (run_inv l start start_inv C) as [G F _ _]. exact (unique_of _ _ _ G F). Qed.

Lemma run_app a b w : run w (a ++ b) = run (run w a) b.
Proof. apply fold_left_app. Qed.
Lemma local_inv ops : forall w, inv w -> w_groups w = [] -> w_flight w = [] -> unique (run w (flat_map events ops)).
Proof.
  induction ops as [|o ops IH]; intros w I G L.
  - destruct I as [A B _ _]. exact (unique_of _ _ _ A B).
  - cbn [flat_map]. rewrite run_app.
    assert (X : inv (run w (events o)) /\ w_groups (run w (events o)) = [] /\ w_flight (run w (events o)) = []).
    { destruct o as [n id | n | id up |]; cbn [events run fold_left].
      - assert (C : careful w (Validate n id)) by (split; [exact L | rewrite G; intros g []]).
        split; [apply step_inv; [now apply step_inv | exact Logic.I]|].
        cbn [step]. destruct (free n id (w_spus w)); cbn [w_flight w_groups w_spus w_uid w_pending]; rewrite L; cbn [existsb fst snd].
        + rewrite same_refl, Z.eqb_refl. cbn [andb orb w_groups w_flight filter fst snd]. rewrite same_refl, Z.eqb_refl. split; [exact G | reflexivity].
        + split; [exact G | exact L].
      - split; [now apply (step_inv w (Unregister n) I Logic.I) | split; assumption].
      - split; [now apply (step_inv w (Health id up) I Logic.I) | split; assumption].
      - split; [now apply (step_inv w Restart I Logic.I) | split; [exact G | reflexivity]]. }
    destruct X as (X1 & X2 & X3). now apply IH.
Qed.
Lemma local_unique ops : unique (run start (flat_map events ops)).
Proof. apply local_inv; [apply start_inv | reflexivity | reflexivity]. Qed.

Lemma validated w name id : w_flight (step w (Validate name id)) = (name, id) :: w_flight w <->
  (forall s, In s (w_spus w) -> s_name s <> name /\ s_id s <> id).
Proof.
  cbn [step]. destruct (free name id (w_spus w)) eqn:E; cbn [w_flight].
  - split; [|reflexivity]. intros _ s I. unfold free in E. apply negb_true_iff, orb_false_iff in E as (E1 & E2). split; intros X.
    + assert (Y : existsb (fun s => same (s_name s) name) (w_spus w) = true); [|congruence]. apply existsb_exists. exists s. split; [exact I | now apply same_true].
    + assert (Y : existsb (fun s => s_id s =? id) (w_spus w) = true); [|congruence]. apply existsb_exists. exists s. split; [exact I | now apply Z.eqb_eq].
  - split.
    + intros H. exfalso. apply (f_equal (@length _)) in H. cbn in H. lia.
    + intros H. exfalso. unfold free in E. apply negb_false_iff, orb_true_iff in E as [E | E]; apply existsb_exists in E as (s & I & E).
      * apply same_true in E. apply (proj1 (H s I)). exact E.
      * apply Z.eqb_eq in E. apply (proj2 (H s I)). exact E.
Qed.
Lemma refused w name id : (exists s, In s (w_spus w) /\ (s_name s = name \/ s_id s = id)) -> step w (Validate name id) = w.
Proof.
  intros (s & I & H). cbn [step]. destruct (free name id (w_spus w)) eqn:E; [|reflexivity]. exfalso. unfold free in E. apply negb_true_iff, orb_false_iff in E as (E1 & E2). destruct H as [H | H].
  - assert (Y : existsb (fun s => same (s_name s) name) (w_spus w) = true); [|congruence]. apply existsb_exists. exists s. split; [exact I | now apply same_true].
  - assert (Y : existsb (fun s => s_id s =? id) (w_spus w) = true); [|congruence]. apply existsb_exists. exists s. split; [exact I | now apply Z.eqb_eq].
Qed.
Lemma registered w name id : In (name, id) (w_flight w) ->
  (exists o, In (mkSpu name id true None o) (w_spus (step w (Register name id)))) /\
  (forall s, In s (w_spus w) -> s_name s <> name -> In s (w_spus (step w (Register name id)))).
Proof.
  intros I. cbn [step]. assert (existsb (fun f => same (fst f) name && (snd f =? id)) (w_flight w) = true) as ->.
  { apply existsb_exists. exists (name, id). split; [exact I|]. cbn. now rewrite same_refl, Z.eqb_refl. }
  cbn [w_spus]. split.
  - destruct (put_there (mkSpu name id true None None) (w_spus w)) as (o & H). exists o. exact H.
  - intros s J N. now apply put_other.
Qed.
Lemma not_asked w name id : ~ In (name, id) (w_flight w) -> step w (Register name id) = w.
Proof.
  intros N. cbn [step]. destruct (existsb _ (w_flight w)) eqn:E; [|reflexivity]. apply existsb_exists in E as ((n, i) & I & E). cbn in E.
  apply andb_true_iff in E as (E1 & E2). apply same_true in E1. apply Z.eqb_eq in E2. subst. contradiction.
Qed.
Lemma unregistered w name s : In s (w_spus (step w (Unregister name))) <-> In s (w_spus w) /\ ~ (s_name s = name /\ s_custom s = true).
Proof.
  cbn [step w_spus]. rewrite filter_In. split; intros (A & B); split; try exact A.
  - intros (E1 & E2). rewrite E1, E2, same_refl in B. discriminate.
  - apply negb_true_iff, andb_false_iff. destruct (same (s_name s) name) eqn:E; [|now left]. right. apply same_true in E. destruct (s_custom s); [|reflexivity]. destruct B. now split.
Qed.

(** * Groups *)

Lemma conflict_exactly g spus : 0 <= g_replicas g -> - 2 ^ 31 <= g_min g -> g_min g + g_replicas g < 2 ^ 31 -> g_status g <> Reserved ->
  is_conflict_with g spus = true <-> conflict g spus.
Proof.
  intros L1 L2 L3 S. unfold is_conflict_with, is_conflict, conflict.
  assert (R : (existsb (fun s => negb (match s_owner s with Some o => o =? g_uid g | None => false end) && (g_min g <=? s_id s) && (s_id s <? wrap_s 32 (g_min g + g_replicas g))) spus = true) <->
              (exists s, In s spus /\ s_owner s <> Some (g_uid g) /\ has_id g (s_id s))).
  { rewrite wrap_s_id by lia. rewrite existsb_exists. split.
    - intros (s & I & E). exists s. split; [exact I|]. apply andb_true_iff in E as (E & E3). apply andb_true_iff in E as (E1 & E2). apply Z.leb_le in E2. apply Z.ltb_lt in E3. split.
      + intros X. rewrite X, Z.eqb_refl in E1. discriminate.
      + exists (s_id s - g_min g). split; [lia|]. unfold compute_spu_id. rewrite wrap_s_id; lia.
    - intros (s & I & O & i & L & E). exists s. split; [exact I|]. unfold compute_spu_id in E. rewrite wrap_s_id in E by lia. rewrite !andb_true_iff. split; [split|].
      + destruct (s_owner s) as [o|]; [|reflexivity]. apply negb_true_iff, Z.eqb_neq. congruence.
      + apply Z.leb_le. lia.
      + apply Z.ltb_lt. lia. }
  destruct (g_status g); [exact R | exact R | congruence].
Qed.
Lemma in_checked w name g : In name (w_pending w) -> find_group name (w_groups w) = Some g ->
  find_group name (w_groups (step w (CheckGroup name))) = Some (set_status (check g (w_spus w)) g).
Proof.
  intros P E. cbn [step]. assert (existsb (same name) (w_pending w) = true) as ->.
  { apply existsb_exists. exists name. split; [exact P | apply same_refl]. }
  rewrite E. cbn [w_groups]. generalize (check g (w_spus w)) as st. intros st. unfold find_group in *. induction (w_groups w) as [|x l IH]; [discriminate|].
  cbn [find] in E. cbn [map find]. destruct (same (g_name x) name) eqn:S.
  - injection E as <-. cbn [g_name set_status]. now rewrite S.
  - rewrite S. now apply IH.
Qed.
Lemma checked w name g : In name (w_pending w) -> find_group name (w_groups w) = Some g ->
  0 <= g_replicas g -> - 2 ^ 31 <= g_min g -> g_min g + g_replicas g < 2 ^ 31 -> g_status g <> Reserved ->
  exists h, find_group name (w_groups (step w (CheckGroup name))) = Some h /\
    (g_status h = Invalid <-> conflict g (w_spus w)) /\ (g_status h = Reserved <-> ~ conflict g (w_spus w)).
Proof.
  intros P E L1 L2 L3 S. exists (set_status (check g (w_spus w)) g). split; [now apply in_checked|]. cbn [g_status set_status].
  pose proof (conflict_exactly g (w_spus w) L1 L2 L3 S) as C. unfold check. destruct (is_conflict_with g (w_spus w)).
  - split; split; intros H; try reflexivity; try discriminate; [now apply C | destruct H; now apply C].
  - assert (N : ~ conflict g (w_spus w)) by (intros X; apply C in X; discriminate). split; split; intros H; try reflexivity; try discriminate; [contradiction | exact N].
Qed.
Lemma find_map f name l : (forall g, g_name (f g) = g_name g) -> find_group name (map f l) = option_map f (find_group name l).
Proof. intros H. unfold find_group. induction l as [|x l IH]; [reflexivity|]. cbn [map find]. rewrite H. destruct (same (g_name x) name); [reflexivity | exact IH]. Qed.
Lemma kept w e name g : find_group name (w_groups w) = Some g -> g_status g = Reserved -> e <> DeleteGroup name ->
  exists h, find_group name (w_groups (step w e)) = Some h /\ g_status h = Reserved /\ g_uid h = g_uid g.
Proof.
  intros E S N. destruct e as [n r m | n | n | | n id | n id | n | id up |]; cbn [step]; try (exists g; auto; fail).
  - destruct (find_group n (w_groups w)) as [g'|] eqn:F; cbn [w_groups].
    + rewrite find_map, E; [|intros x; destruct (same (g_name x) n) eqn:X; [cbn; symmetry; now apply same_true | reflexivity]].
      cbn [option_map]. eexists. split; [reflexivity|]. destruct (same (g_name g) n); now split.
    + exists g. split; [|now split]. unfold find_group in *. induction (w_groups w) as [|x l IH]; [discriminate|]. cbn [app find] in *. destruct (same (g_name x) name); [exact E|].
      apply IH; [exact E|]. destruct (same (g_name x) n); [discriminate | exact F].
  - destruct (find_group n (w_groups w)) as [g'|]; [|exists g; auto]. cbn [w_groups]. exists g. split; [|now split].
    assert (NN : n <> name) by congruence. unfold find_group in *. induction (w_groups w) as [|x l IH]; [discriminate|]. cbn [filter find] in *. destruct (same (g_name x) name) eqn:X.
    + apply same_true in X. assert (same (g_name x) n = false) as -> by (apply same_false; congruence). cbn [negb find]. rewrite X, same_refl. exact E.
    + destruct (same (g_name x) n); cbn [negb find]; [|rewrite X]; now apply IH.
  - destruct (existsb (same n) (w_pending w)); [|exists g; auto]. destruct (find_group n (w_groups w)) as [g'|] eqn:F; [|exists g; auto]. cbn [w_groups].
    rewrite find_map, E; [|intros x; destruct (same (g_name x) n); reflexivity]. cbn [option_map]. eexists. split; [reflexivity|].
    destruct (same (g_name g) n) eqn:X; [|now split]. split; [|reflexivity]. cbn [g_status set_status].
    assert (g' = g) as ->. { pose proof (find_group_some _ _ _ E) as (_ & Q). apply same_true in X. assert (n = name) as -> by congruence. congruence. }
    unfold check, is_conflict_with. now rewrite S.
  - destruct (free n id (w_spus w)); exists g; auto.
  - destruct (existsb _ (w_flight w)); exists g; auto.
Qed.

(** * The SPUs of groups *)

Lemma fold_put_keeps todo : forall l x, In x l -> (forall s, In s todo -> s_name s <> s_name x) -> In x (fold_left (fun l s => put s l) todo l).
Proof.
  induction todo as [|s todo IH]; intros l x I H; [exact I|]. cbn [fold_left]. apply IH; [|intros t J; apply H; now right].
  apply put_other; [exact I|]. intros E. apply (H s (or_introl eq_refl)). now symmetry.
Qed.
Lemma fold_put_there todo s : In s todo -> (forall t, In t todo -> s_name t = s_name s -> t = s) -> forall l,
  exists o, In (mkSpu (s_name s) (s_id s) (s_custom s) (s_owner s) o) (fold_left (fun l s => put s l) todo l).
Proof.
  induction todo as [|a todo IH]; intros I U l; [destruct I|]. cbn [fold_left].
  destruct (in_dec (list_eq_dec Z.eq_dec) (s_name s) (map s_name todo)) as [J | J].
  - apply IH; [|intros t K; apply U; now right]. apply in_map_iff in J as (t & E & J). rewrite <- (U t (or_intror J) E). exact J.
  - assert (a = s) as ->. { destruct I as [E | I]; [exact E|]. destruct J. now apply in_map. }
    destruct (put_there s l) as (o & P). exists o. apply fold_put_keeps; [exact P|]. cbn [s_name]. intros t K E. apply J. rewrite <- E. now apply in_map.
Qed.
Lemma all_there w g i : (forall h, In h (w_groups w) -> 0 <= g_replicas h < 2 ^ 16) -> (forall h k, In h (w_groups w) -> In k (w_groups w) -> g_name h = g_name k -> h = k) ->
  In g (w_groups w) -> 0 <= i < g_replicas g ->
  exists s, In s (w_spus (step w Sync)) /\ s_name s = print_replica (g_name g) i /\ s_id s = compute_spu_id (g_min g) i /\ s_custom s = false.
Proof.
  intros R U I L. cbn [step w_spus]. unfold sync_spu.
  destruct (fold_put_there (flat_map (fun g => map (as_spu g) (indices g)) (w_groups w)) (as_spu g i)) with (l := w_spus w) as (o & P).
  - apply in_flat_map. exists g. split; [exact I|]. apply in_map. now apply in_indices.
  - intros t J E. apply in_flat_map in J as (h & J & K). apply in_map_iff in K as (j & <- & K). apply in_indices in K. cbn [as_spu s_name] in E.
    pose proof (R g I). pose proof (R h J). apply names_apart in E as (E & ->); [|lia|lia]. now rewrite (U h g J I E).
  - eexists. split; [exact P|]. repeat split.
Qed.
Definition distinct (gs : list group) : Prop := NoDup (map g_name gs).
Lemma step_names w e : distinct (w_groups w) -> distinct (w_groups (step w e)).
Proof.
  unfold distinct. intros D. destruct e as [n r m | n | n | | n id | n id | n | id up |]; cbn [step]; try exact D.
  - destruct (find_group n (w_groups w)) eqn:F; cbn [w_groups].
    + rewrite map_map. rewrite (map_ext _ g_name); [exact D|]. intros x. destruct (same (g_name x) n) eqn:X; [cbn; symmetry; now apply same_true | reflexivity].
    + rewrite map_app. cbn [map g_name]. apply NoDup_Add with (l := map g_name (w_groups w)) (a := n).
      * rewrite <- (app_nil_r (map g_name (w_groups w))) at 1. apply Add_app.
      * split; [exact D|]. intros I. apply in_map_iff in I as (x & E & I). exact (find_group_none _ _ F x I E).
  - destruct (find_group n (w_groups w)); [|exact D]. cbn [w_groups]. induction (w_groups w) as [|x l IH]; [constructor|]. cbn [map] in D. inversion D as [|? ? D1 D2]; subst. cbn [filter].
    destruct (negb (same (g_name x) n)); [|now apply IH]. cbn [map]. constructor; [|now apply IH]. intros I. apply D1. apply in_map_iff in I as (y & E & I). apply filter_In in I as (I & _). rewrite <- E. now apply in_map.
  - destruct (existsb (same n) (w_pending w)); [|exact D]. destruct (find_group n (w_groups w)); [|exact D]. cbn [w_groups]. rewrite map_map. rewrite (map_ext _ g_name); [exact D|].
    intros x. destruct (same (g_name x) n); reflexivity.
  - destruct (free n id (w_spus w)); exact D.
  - destruct (existsb _ (w_flight w)); exact D.
Qed.
Lemma run_names l : forall w, distinct (w_groups w) -> distinct (w_groups (run w l)).
Proof. induction l as [|e l IH]; intros w D; [exact D|]. apply IH. now apply step_names. Qed.
Lemma all_spus l g i : let w := run start l in (forall h, In h (w_groups w) -> 0 <= g_replicas h < 2 ^ 16) -> In g (w_groups w) -> 0 <= i < g_replicas g ->
  exists s, In s (w_spus (step w Sync)) /\ s_name s = print_replica (g_name g) i /\ s_id s = compute_spu_id (g_min g) i /\ s_custom s = false.
Proof.
  intros w R I L. apply all_there; try assumption. intros h k H K E. apply (nodup_inj g_name (w_groups w)); try assumption. apply run_names. constructor.
Qed.

(** * Pods *)

Lemma pod_id g i : 0 <= i < 2 ^ 16 -> id_from_env (pod_name g i) (g_min g) = Some (s_id (as_spu g i)).
Proof.
  intros L. unfold id_from_env, pod_name, print_replica. destruct (print_dec_spec i ltac:(lia)) as (A & B & _ & D).
  assert (N : numeral (print_dec i) i) by (exists (print_dec i); auto).
  rewrite (proj2 (split_last_spec 45 _ (prefix ++ g_name g) (print_dec i)) (conj eq_refl (proj1 (numeral_no_dash _ _ N)))).
  rewrite (proj2 (parse_unsigned_spec (2 ^ 31 - 1) (print_dec i) i ltac:(lia))); [reflexivity|]. split; [exact N | lia].
Qed.
Lemma pod_address g i : private_host g i = pod_host g i <-> g_name g = main_name.
Proof.
  unfold private_host, pod_host, pod_name, print_replica. split.
  - intros E. rewrite <- !app_assoc in E. apply app_inv_head in E. apply app_inv_tail in E. now symmetry.
  - intros ->. reflexivity.
Qed.

(** * Histories *)

Definition a : bytes := [97].
Definition b : bytes := [98].
Definition c : bytes := [99].
Definition d : bytes := [100].
Definition custom (n : bytes) (id : Z) : list event := [Validate n id; Register n id].

Definition twice (w : world) : Prop := exists s t, In s (w_spus w) /\ In t (w_spus w) /\ s_name s <> s_name t /\ s_id s = s_id t.
Lemma twice_not_unique w : twice w -> ~ unique w.
Proof. intros (s & t & I & J & N & E) U. apply N. now rewrite (nodup_inj s_id (w_spus w) s t U I J E). Qed.

Ltac look := eexists _, _; vm_compute; repeat split; try (left; reflexivity); try (right; left; reflexivity); try (right; right; left; reflexivity); discriminate.

Lemma invalid_group : exists l g, In g (w_groups (run start l)) /\ g_status g = Invalid /\ conflict g (w_spus (run start l)) /\
  (exists s, In s (w_spus (run start l)) /\ s_owner s = Some (g_uid g)) /\ ~ unique (run start l).
Proof.
  exists (custom c 5 ++ [CreateGroup a 2 4; CheckGroup a; Sync]). eexists. split; [vm_compute; left; reflexivity|]. split; [reflexivity|]. split; [|split].
  - eexists. split; [vm_compute; left; reflexivity|]. split; [discriminate|]. exists 1. split; [split; reflexivity || discriminate | reflexivity].
  - eexists. split; [vm_compute; right; left; reflexivity | reflexivity].
  - apply twice_not_unique. eexists (mkSpu c 5 true None None), (mkSpu [97; 45; 49] 5 false (Some 0) None). vm_compute. repeat split; auto. discriminate.
Qed.
Lemma two_groups : exists l g h, let w := run start l in In g (w_groups w) /\ In h (w_groups w) /\ g <> h /\ g_status g = Reserved /\ g_status h = Reserved /\ ~ unique w.
Proof.
  exists [CreateGroup a 2 0; CreateGroup b 2 1; CheckGroup a; CheckGroup b; Sync], (mkGroup 0 a 2 0 Reserved), (mkGroup 1 b 2 1 Reserved). cbv zeta.
  split; [vm_compute; auto|]. split; [vm_compute; auto|]. split; [discriminate|]. split; [reflexivity|]. split; [reflexivity|].
  apply twice_not_unique. exists (mkSpu [97; 45; 49] 1 false (Some 0) None), (mkSpu [98; 45; 48] 1 false (Some 1) None). vm_compute. repeat split; auto. discriminate.
Qed.
Lemma custom_in_group : exists l g n id, let w := run start l in In g (w_groups w) /\ g_status g = Reserved /\ has_id g id /\
  w_spus (run w (custom n id)) = w_spus w ++ [mkSpu n id true None None] /\ ~ unique (run w (custom n id ++ [Sync])).
Proof.
  exists [CreateGroup a 2 0; CheckGroup a], (mkGroup 0 a 2 0 Reserved), c, 1. cbv zeta. split; [vm_compute; auto|]. split; [reflexivity|]. split; [exists 1; split; [split; reflexivity || discriminate | reflexivity]|].
  split; [reflexivity|]. apply twice_not_unique. exists (mkSpu c 1 true None None), (mkSpu [97; 45; 49] 1 false (Some 0) None). vm_compute. repeat split; auto. discriminate.
Qed.
Lemma changed_group : exists l n r m, let w := run start l in unique w /\ (exists g, find_group n (w_groups w) = Some g /\ g_status g = Reserved) /\
  (exists g, find_group n (w_groups (run w [CreateGroup n r m; CheckGroup n; Sync])) = Some g /\ g_status g = Reserved) /\ ~ unique (run w [CreateGroup n r m; CheckGroup n; Sync]).
Proof.
  exists ([CreateGroup a 1 0; CheckGroup a; Sync] ++ custom c 5), a, 1, 5. cbv zeta. split; [|split; [|split]].
  - unfold unique. vm_compute. constructor; [intros [X | []]; discriminate|]. constructor; [intros [] | constructor].
  - eexists. split; reflexivity.
  - eexists. split; reflexivity.
  - apply twice_not_unique. exists (mkSpu c 5 true None None), (mkSpu [97; 45; 48] 5 false (Some 0) None). vm_compute. repeat split; auto. discriminate.
Qed.
Lemma two_at_once : exists l, (forall n r m, ~ In (CreateGroup n r m) l) /\ ~ unique (run start l).
Proof.
  exists [Validate c 5; Validate d 5; Register c 5; Register d 5]. split; [intros n r m [X | [X | [X | [X | []]]]]; discriminate|].
  apply twice_not_unique. exists (mkSpu c 5 true None None), (mkSpu d 5 true None None). vm_compute. repeat split; auto. discriminate.
Qed.
Lemma overflow : exists l g, let w := run start l in In g (w_groups w) /\ g_status g = Reserved /\ conflict g (w_spus w).
Proof.
  exists (custom c 2147483647 ++ [CreateGroup a 3 2147483646; CheckGroup a]), (mkGroup 0 a 3 2147483646 Reserved). cbv zeta. split; [vm_compute; auto|]. split; [reflexivity|].
  exists (mkSpu c 2147483647 true None None). split; [vm_compute; auto|]. split; [discriminate|]. exists 1. split; [split; reflexivity || discriminate | reflexivity].
Qed.
Lemma left_over : exists l s g, let w := run start l in w_groups w = [g] /\ In s (w_spus (run w [CheckGroup (g_name g); Sync])) /\ s_custom s = false /\ ~ has_name g (s_name s).
Proof.
  exists [CreateGroup a 2 0; CheckGroup a; Sync; CreateGroup a 1 0; CheckGroup a; Sync], (mkSpu [97; 45; 49] 1 false (Some 0) None), (mkGroup 0 a 1 0 Reserved). cbv zeta.
  split; [reflexivity|]. split; [vm_compute; auto|]. split; [reflexivity|]. intros (i & L & E). cbn [g_replicas] in L. assert (i = 0) by lia. subst. discriminate.
Qed.
Lemma replaced : exists l n, let w := run start l in In (mkSpu n 9 true None None) (w_spus w) /\ w_spus (run w [CreateGroup a 1 0; CheckGroup a; Sync]) = [mkSpu n 0 false (Some 0) None].
Proof. exists (custom [97; 45; 48] 9), [97; 45; 48]. cbv zeta. split; [vm_compute; auto | reflexivity]. Qed.
Lemma stuck : exists l g, let w := run start l in w_groups w = [g] /\ g_status g = Invalid /\ w_spus w = [] /\ step w (CheckGroup (g_name g)) = w.
Proof.
  exists (custom c 0 ++ [CreateGroup a 1 0; CheckGroup a; CheckGroup a; Unregister c]), (mkGroup 0 a 1 0 Invalid). cbv zeta. repeat split.
Qed.
Lemma shown_online : exists l s, let w := run start l in In s (w_spus w) /\ s_online s = Some true /\ s_owner s = Some 0 /\
  exists g, w_groups w = [g] /\ g_uid g = 0 /\ g_status g = Invalid.
Proof.
  exists (custom c 5 ++ [CreateGroup a 1 5; CheckGroup a; Sync; Health 5 true]), (mkSpu [97; 45; 48] 5 false (Some 0) (Some true)). cbv zeta. split; [vm_compute; auto|].
  split; [reflexivity|]. split; [reflexivity|]. eexists. repeat split.
Qed.
Lemma dry_group : exists name r m, w_groups (create_group true name r m start) <> w_groups start.
Proof. exists a, 1, 0. discriminate. Qed.
Lemma careful_case : carefully start ([CreateGroup a 2 0; CheckGroup a; Sync] ++ custom c 5 ++ [CreateGroup b 2 10; CheckGroup b; Sync; Health 5 true]) /\
  map s_id (w_spus (run start ([CreateGroup a 2 0; CheckGroup a; Sync] ++ custom c 5 ++ [CreateGroup b 2 10; CheckGroup b; Sync; Health 5 true]))) = [0; 1; 5; 10; 11].
Proof.
  split; [|reflexivity]. cbn [app custom carefully careful]. split; [|split; [exact Logic.I|split; [exact Logic.I|split; [|split; [exact Logic.I|split; [|repeat split]]]]]].
  - split; [lia|]. split; [intros []|]. split; [intros h id []|]. split; intros s [].
  - split; [reflexivity|]. intros g I. assert (In g [mkGroup 0 a 2 0 Reserved]) as [<- | []] by exact I. split.
    + intros (i & L & E). cbn [g_replicas g_min] in *. unfold compute_spu_id in E. rewrite wrap_s_id in E by lia. lia.
    + intros (i & L & E). cbn [g_replicas g_name] in *. assert (i = 0 \/ i = 1) as [-> | ->] by lia; discriminate.
  - split; [lia|]. split; [intros I; assert (In b [a]) as [X | []] by exact I; discriminate|].
    split; [|split].
    + intros h id I. assert (In h [mkGroup 0 a 2 0 Reserved]) as [<- | []] by exact I. intros (i & L & ->) (j & M & E). cbn [g_replicas g_min] in *. unfold compute_spu_id in E. rewrite !wrap_s_id in E by lia. lia.
    + intros s I. match type of I with In _ ?l => let v := eval vm_compute in l in change l with v in I end. split.
      * intros (i & L & E). cbn [g_replicas g_min] in *. unfold compute_spu_id in E. rewrite wrap_s_id in E by lia. destruct I as [<- | [<- | [<- | []]]]; cbn [s_id] in E; lia.
      * intros (i & L & E). cbn [g_replicas g_name] in *. assert (i = 0 \/ i = 1) as [-> | ->] by lia; destruct I as [<- | [<- | [<- | []]]]; discriminate.
    + intros f [].
Qed.
Lemma reported : forall w id up s, In s (w_spus (step w (Health id up))) <->
  exists o, In (mkSpu (s_name s) (s_id s) (s_custom s) (s_owner s) o) (w_spus w) /\ s_online s = if s_id s =? id then Some up else o.
Proof.
  intros w id up s. cbn [step w_spus]. rewrite in_map_iff. split.
  - intros ([n i cu ow o] & <- & X). exists o. unfold report. cbn [s_name s_id s_custom s_owner s_online]. destruct (i =? id) eqn:E; cbn [s_name s_id s_custom s_owner s_online]; rewrite E; auto.
  - intros (o & X & E). eexists. split; [|exact X]. unfold report. cbn [s_name s_id s_custom s_owner s_online]. destruct s as [n i cu ow o']. cbn [s_name s_id s_custom s_owner s_online] in *. destruct (i =? id); subst; reflexivity.
Qed.
Lemma group_deleted : forall w name g, find_group name (w_groups w) = Some g ->
  (forall s, In s (w_spus (step w (DeleteGroup name))) <-> In s (w_spus w) /\ s_owner s <> Some (g_uid g)) /\
  (forall x, In x (w_groups (step w (DeleteGroup name))) <-> In x (w_groups w) /\ g_name x <> name).
Proof.
  intros w name g F. cbn [step]. rewrite F. cbn [w_spus w_groups]. split.
  - intros s. rewrite filter_In. destruct (s_owner s) as [o|]; [destruct (Z.eqb_spec o (g_uid g))|]; cbn [negb]; intuition congruence.
  - intros x. rewrite filter_In. unfold same. destruct (list_eq_dec Z.eq_dec (g_name x) name); cbn [negb]; intuition congruence.
Qed.
Lemma restarted : forall w, w_groups (step w Restart) = w_groups w /\ w_spus (step w Restart) = w_spus w /\
  forall g, In g (w_groups w) -> In (g_name g) (w_pending (step w Restart)).
Proof. intros w. repeat split. intros g X. cbn [step w_pending]. now apply in_map. Qed.
