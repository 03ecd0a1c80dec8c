(** The controller properties, proved from the lemmas about the functions. *)
From Coq Require Import Permutation.
From Verif Require Import Base ListFacts.
From Verif Require Import ControlModel ControlSpec ControlProofs TopicProofs.

(** ** Maps *)
Lemma mget_in i m rs : mget i m = Some rs -> In (i, rs) m.
Proof.
  induction m as [|[j q] t IH]; cbn [mget]; [discriminate|].
  destruct (Z.eqb_spec i j) as [->|D]; intros H; [injection H as <-; now left | right; auto].
Qed.
Lemma mget_of_in i m rs : NoDup (map fst m) -> In (i, rs) m -> mget i m = Some rs.
Proof.
  induction m as [|[j q] t IH]; cbn [mget map fst]; intros N; [intros []|].
  inversion N as [|? ? H1 H2]; subst. intros [X|X].
  - injection X as -> ->. now rewrite Z.eqb_refl.
  - destruct (Z.eqb_spec i j) as [->|D]; [|auto]. exfalso. apply H1.
    change j with (fst (j, rs)). now apply in_map.
Qed.
Lemma indices_in n i : In i (indices n) <-> 0 <= i < n.
Proof.
  unfold indices. rewrite in_map_iff. split.
  - intros (k & <- & K). apply in_seq in K. lia.
  - intros H. exists (Z.to_nat i). split; [lia|]. apply in_seq. lia.
Qed.
Lemma indices_nodup n : NoDup (indices n).
Proof.
  unfold indices. apply FinFun.Injective_map_NoDup; [|apply seq_NoDup].
  intros a b. apply Nat2Z.inj.
Qed.
Lemma indices_len n : 0 <= n -> zlen (indices n) = n.
Proof. intros. unfold indices, zlen. rewrite map_length, seq_length. lia. Qed.

(** ** Placement *)
Lemma placement_sorted online count rf old m :
  valid_placement (sort online) count rf old m -> valid_placement online count rf old m.
Proof.
  intros (A & B). split; [exact A|]. intros i rs I. destruct (B i rs I) as [X|(X & Y1 & Y2 & Y3)]; [now left|].
  right. split; [exact X|]. split; [exact Y1|]. split; [exact Y2|].
  intros s S. apply (proj1 (sort_in s online)), Y3, S.
Qed.

Lemma generate_valid spus parts count rf old :
  0 <= rf ->
  generate_replica_map spus parts count rf old = [] \/
  valid_placement (online_ids spus) count rf old (generate_replica_map spus parts count rf old).
Proof.
  intros R. unfold generate_replica_map. destruct (wrap_u 32 (zlen spus) <? rf); [now left|].
  destruct (gen_partitions (Z.to_nat count) 0 (sort (online_ids spus)) rf old (group_by_spu parts))
    as [[m g]|] eqn:E; [|now left]. right.
  apply placement_sorted. destruct (gen_valid _ _ _ _ R _ _ _ _ E) as (A & B).
  split; [now rewrite <- range_0 | exact B].
Qed.

Lemma sort_light parts online count : light_load parts online count -> light_load parts (sort online) count.
Proof. intros L s S. exact (L s (proj1 (sort_in s online) S)). Qed.

Lemma online_nodup spus : NoDup (spu_ids spus) -> NoDup (online_ids spus).
Proof. apply filter_nodup_map. Qed.
Lemma filter_len {A} (f : A -> bool) l : (length (filter f l) <= length l)%nat.
Proof. induction l as [|x t IH]; cbn; [lia|]. destruct (f x); cbn; lia. Qed.
Lemma online_len spus : zlen (online_ids spus) <= zlen spus.
Proof. unfold online_ids, zlen. rewrite map_length. apply Nat2Z.inj_le, filter_len. Qed.

Lemma generate_iff spus parts count rf old :
  0 < count -> 0 < rf -> NoDup (spu_ids spus) -> zlen spus < 2 ^ 32 ->
  light_load parts (online_ids spus) count ->
  (generate_replica_map spus parts count rf old = [] <->
   zlen spus < rf \/
   (zlen (online_ids spus) < rf /\ exists i, 0 <= i < count /\ forall rs, ~ already_placed old rf i rs)).
Proof.
  intros C R ND B L. unfold generate_replica_map. pose proof (zlen_nonneg spus).
  rewrite wrap_u_id by (unfold in_u; lia).
  destruct (Z.ltb_spec (zlen spus) rf) as [LT|GE]; [split; auto|].
  set (online := online_ids spus) in *.
  assert (NDO : NoDup (sort online)) by (apply sort_nodup, online_nodup, ND).
  assert (LEN : zlen (sort online) = zlen online) by (unfold zlen; now rewrite sort_length).
  assert (NE : forall m g, gen_partitions (Z.to_nat count) 0 (sort online) rf old (group_by_spu parts) = Some (m, g) -> m <> []).
  { intros m g E. destruct (gen_valid _ _ rf _ ltac:(lia) _ _ _ _ E) as (A & _). rewrite range_0 in A.
    intros ->. cbn in A. pose proof (indices_len count ltac:(lia)) as X. rewrite <- A in X. cbn in X. lia. }
  destruct (Z_lt_ge_dec (zlen online) rf) as [FEW|ENOUGH].
  - destruct (existsb (fun i => match kept old rf i with None => true | _ => false end) (indices count)) eqn:E.
    + apply existsb_exists in E. destruct E as (i & I & K). apply indices_in in I.
      destruct (kept old rf i) eqn:KI; [discriminate|].
      rewrite gen_none.
      * split; auto. intros _. right. split; [exact FEW|]. exists i. split; [exact I|]. now apply kept_none.
      * rewrite nodup_fixed_point by exact NDO. unfold zlen in *. lia.
      * exists i. split; [lia|exact KI].
    + destruct (gen_all_kept (Z.to_nat count) (sort online) rf old 0 (group_by_spu parts)) as ([m g] & G).
      { intros j J K. assert (X : existsb (fun i => match kept old rf i with None => true | _ => false end) (indices count) = true).
        { apply existsb_exists. exists j. split; [apply indices_in; lia|]. now rewrite K. }
        congruence. }
      rewrite G. split.
      * intros ->. exfalso. exact (NE _ _ G eq_refl).
      * intros [X|(_ & i & I & K)]; [lia|]. exfalso. apply kept_none in K.
        assert (X : existsb (fun i => match kept old rf i with None => true | _ => false end) (indices count) = true).
        { apply existsb_exists. exists i. split; [apply indices_in; lia|]. now rewrite K. }
        congruence.
  - destruct (gen_some (Z.to_nat count) (sort online) rf old ltac:(lia) NDO ltac:(lia) 0 (group_by_spu parts)) as ([m g] & G).
    { apply low_of_light; [lia|]. apply sort_light. rewrite Z2Nat.id by lia. exact L. }
    rewrite G. split.
    + intros ->. exfalso. exact (NE _ _ G eq_refl).
    + intros [X|(X & _)]; lia.
Qed.

Lemma generate_nonempty spus parts count rf old :
  0 < count -> 0 < rf -> NoDup (spu_ids spus) -> zlen spus < 2 ^ 32 ->
  light_load parts (online_ids spus) count -> rf <= zlen (online_ids spus) ->
  generate_replica_map spus parts count rf old <> [].
Proof.
  intros C R ND B L E X. apply generate_iff in X; auto. pose proof (online_len spus).
  destruct X as [X|(X & _)]; lia.
Qed.

Lemma full_server_never_used parts s count :
  0 < count -> leader_count parts s = 65535 ->
  generate_replica_map [(s, true)] parts count 1 [] = [].
Proof.
  intros C F. unfold generate_replica_map. change (wrap_u 32 (zlen [(s, true)]) <? 1) with false. cbn iota.
  destruct (Z.to_nat count) as [|n] eqn:E; [lia|].
  cbn [gen_partitions kept mget online_ids filter snd map fst sort fold_right insert_sorted].
  change (Z.to_nat 1) with 1%nat. cbn [place_replicas]. unfold find_suitable_spu. cbn [fold_left].
  unfold suitable_step at 1. cbn [zmem existsb snd].
  destruct (group_by_counts parts s) as (A & _). rewrite A, F.
  change (65535 mod 2 ^ 16 <? 65535) with false. reflexivity.
Qed.

Lemma leader_count_repeat n p : leader_count (repeat p n) (ps_leader p) = Z.of_nat n.
Proof.
  induction n as [|n IH]; [reflexivity|]. cbn [repeat]. unfold leader_count in *. cbn [filter].
  rewrite Z.eqb_refl, zlen_cons, IH. lia.
Qed.

(** ** Balance *)
Lemma generate_fewest spus parts count rf old m1 j rs m2 :
  0 < rf -> 0 <= count -> light_load parts (online_ids spus) count ->
  generate_replica_map spus parts count rf old = m1 ++ (j, rs) :: m2 ->
  (forall rs', ~ already_placed old rf j rs') ->
  In (hd 0 rs) (online_ids spus) /\
  forall t, In t (online_ids spus) ->
    leader_count parts (hd 0 rs) + new_leaders old rf m1 (hd 0 rs)
    <= leader_count parts t + new_leaders old rf m1 t.
Proof.
  intros R C L E K. unfold generate_replica_map in E.
  destruct (wrap_u 32 (zlen spus) <? rf); [destruct m1; discriminate|].
  destruct (gen_partitions (Z.to_nat count) 0 (sort (online_ids spus)) rf old (group_by_spu parts))
    as [[m g]|] eqn:G; [|destruct m1; discriminate].
  apply kept_none in K.
  assert (LOW : low (sort (online_ids spus)) (group_by_spu parts) (Z.of_nat (Z.to_nat count))).
  { rewrite Z2Nat.id by lia. apply low_of_light; [lia|]. now apply sort_light. }
  destruct (gen_fewest _ _ _ _ R _ _ _ _ LOW G _ _ _ _ E K) as (A & B).
  apply (proj1 (sort_in _ _)) in A. split; [exact A|]. intros t T.
  assert (CNT : forall x, In x (online_ids spus) -> g_leaders (group_by_spu parts) x = leader_count parts x).
  { intros x X. destruct (group_by_counts parts x) as (Y & _). rewrite Y. destruct (L x X) as (Z & _).
    pose proof (leader_count_nonneg parts x). change (2 ^ 16) with 65536. apply Z.mod_small. lia. }
  specialize (B t (proj2 (sort_in _ _) T)). rewrite (CNT _ A), (CNT _ T) in B. exact B.
Qed.

Lemma generate_balanced spus parts count rf old :
  0 < rf -> 0 <= count -> light_load parts (online_ids spus) count ->
  (forall a b, In a (online_ids spus) -> In b (online_ids spus) ->
     leader_count parts a <= leader_count parts b + 1) ->
  let m := generate_replica_map spus parts count rf old in
  forall a b, In a (online_ids spus) -> In b (online_ids spus) ->
    leader_count parts a + new_leaders old rf m a <= leader_count parts b + new_leaders old rf m b + 1.
Proof.
  intros R C L BAL m a b A B. subst m. unfold generate_replica_map.
  assert (Z0 : forall x, new_leaders old rf [] x = 0) by reflexivity.
  destruct (wrap_u 32 (zlen spus) <? rf); [rewrite !Z0; specialize (BAL a b A B); lia|].
  destruct (gen_partitions (Z.to_nat count) 0 (sort (online_ids spus)) rf old (group_by_spu parts))
    as [[m g]|] eqn:G; [|rewrite !Z0; specialize (BAL a b A B); lia].
  assert (LOW : low (sort (online_ids spus)) (group_by_spu parts) (Z.of_nat (Z.to_nat count))).
  { rewrite Z2Nat.id by lia. apply low_of_light; [lia|]. now apply sort_light. }
  assert (CNT : forall x, In x (online_ids spus) -> g_leaders (group_by_spu parts) x = leader_count parts x).
  { intros x X. destruct (group_by_counts parts x) as (Y & _). rewrite Y. destruct (L x X) as (Z & _).
    pose proof (leader_count_nonneg parts x). change (2 ^ 16) with 65536. apply Z.mod_small. lia. }
  rewrite <- (CNT a A), <- (CNT b B).
  apply (gen_balance _ _ _ _ R _ _ _ _ LOW G); [|exact (proj2 (sort_in _ _) A)|exact (proj2 (sort_in _ _) B)].
  intros x y X Y. apply (proj1 (sort_in _ _)) in X. apply (proj1 (sort_in _ _)) in Y. rewrite (CNT x X), (CNT y Y). auto.
Qed.

(** leaders of the partitions a finished placement creates, counted on the partitions themselves *)
Lemma new_leaders_fresh rf m s : new_leaders [] rf m s = leader_count (map (fun e => from_replicas (snd e)) m) s.
Proof.
  unfold new_leaders, leader_count. induction m as [|[i rs] t IH]; [reflexivity|].
  cbn [filter map fst snd kept mget from_replicas ps_leader].
  destruct (hd 0 rs =? s); [rewrite !zlen_cons; f_equal|]; exact IH.
Qed.

(** ** Election *)
Lemma elected online s c : sane s -> candidate_leader online s = Some c ->
  exists r, eligible online s r /\ r_spu r = c /\
    ((forall r', In r' (st_replicas s) -> r_leo r' <= r_leo (st_leader s)) ->
     forall r', eligible online s r' -> lag (st_leader s) r <= lag (st_leader s) r').
Proof.
  intros S H. pose proof (candidate_inv online s S) as C. rewrite H in C.
  destruct C as (r & E & SP & MIN). exists r. split; [exact E|]. split; [exact SP|].
  intros NA r' E'. specialize (MIN r' E'). destruct E as (I & _ & L). destruct E' as (I' & _ & L').
  pose proof (NA r I). pose proof (NA r' I'). unfold lag in *.
  rewrite !Z.mod_small in MIN by lia. exact MIN.
Qed.
Lemma not_elected online s : sane s ->
  (candidate_leader online s = None <-> forall r, ~ eligible online s r).
Proof.
  intros S. pose proof (candidate_inv online s S) as C.
  destruct (candidate_leader online s) as [c|].
  - split; [discriminate|]. intros N. destruct C as (r & E & _). exfalso. exact (N r E).
  - split; auto.
Qed.

Lemma elections online changed parts k sp :
  (forall p, In p parts -> sane (pt_status p)) ->
  In (UpdateSpec k sp) (update_election online changed parts) ->
  exists p r, In p parts /\ pt_key p = k /\ ps_replicas sp = ps_replicas (pt_spec p) /\
    In r (st_replicas (pt_status p)) /\ r_spu r = ps_leader sp /\
    lag (st_leader (pt_status p)) r < 4 /\
    (online (ps_leader sp) = true \/ In (ps_leader sp, true) changed).
Proof.
  intros S I. unfold update_election in I. apply in_app_or in I. destruct I as [I|I].
  - apply in_flat_map in I. destruct I as ([off b] & F & I). apply in_flat_map in I.
    destruct I as (p & P & I). unfold elect_off in I.
    destruct (ps_leader (pt_spec p) =? fst (off, b)); [|destruct I].
    destruct (candidate_leader online (pt_status p)) as [c|] eqn:C.
    + destruct I as [I|[]]. injection I as <- <-.
      destruct (elected online (pt_status p) c (S p P) C) as (r & (R1 & R2 & R3) & R4 & _).
      exists p, r. cbn [set_leader ps_replicas ps_leader]. repeat split; auto. left. now rewrite <- R4.
    + destruct (is_online (pt_status p)); [|destruct I]. destruct I as [I|[]]. discriminate.
  - apply in_flat_map in I. destruct I as ([on b] & F & I). apply filter_In in F. destruct F as (F & T).
    cbn [snd] in T. subst b. apply in_flat_map in I. destruct I as (p & P & I). unfold elect_on in I.
    destruct (is_readable (pt_status p)); [destruct I|].
    destruct (ps_leader (pt_spec p) =? fst (on, true)); [destruct I as [I|[]]; discriminate|].
    apply in_flat_map in I. destruct I as (r & R & I). cbn [fst] in I.
    destruct (Z.eqb_spec (r_spu r) on) as [E|D]; cbn [andb] in I; [|destruct I].
    destruct (S p P) as (SL & SR). rewrite Forall_forall in SR.
    rewrite (score_spec _ r SL (SR r R)) in I.
    destruct (lag (st_leader (pt_status p)) r <? 4) eqn:L; [|destruct I].
    destruct I as [I|[]]. injection I as <- <-. apply Z.ltb_lt in L.
    exists p, r. cbn [set_leader ps_replicas ps_leader]. repeat split; auto.
Qed.

Lemma reports_keep_unique rs s : unique_servers s -> unique_servers (fold_left ps_merge rs s).
Proof. revert s. induction rs as [|r t IH]; intros s U; cbn [fold_left]; auto using ps_merge_unique. Qed.

Lemma reports_consistent rs o s :
  unique_servers s -> complete_report (servers (fold_left ps_merge rs s)) o ->
  consistent (fold_left ps_merge (rs ++ [o]) s).
Proof.
  intros U C. rewrite fold_left_app. cbn [fold_left].
  apply ps_merge_consistent; [now apply reports_keep_unique | exact C].
Qed.

(** ** Topics *)
Lemma generate_keeps spus parts count rf old i rs :
  0 <= rf -> 0 <= i < count -> mget i old = Some rs -> zlen rs = rf ->
  generate_replica_map spus parts count rf old <> [] ->
  mget i (generate_replica_map spus parts count rf old) = Some rs.
Proof.
  intros R I G L NE. destruct (generate_valid spus parts count rf old R) as [X|(A & B)]; [contradiction|].
  set (m := generate_replica_map spus parts count rf old) in *.
  assert (ND : NoDup (map fst m)) by (rewrite A; apply indices_nodup).
  assert (IN : In i (map fst m)) by (rewrite A; now apply indices_in).
  apply in_map_iff in IN. destruct IN as ([j q] & E & IN). cbn in E. subst j.
  destruct (B i q IN) as [(X & _)|(X & _)].
  - rewrite X in G. injection G as ->. now apply mget_of_in.
  - exfalso. apply (X rs). now split.
Qed.

Lemma generate_range spus parts count rf old i rs :
  0 <= rf -> mget i (generate_replica_map spus parts count rf old) = Some rs ->
  0 <= i < count /\ zlen rs = rf.
Proof.
  intros R G. apply mget_in in G. destruct (generate_valid spus parts count rf old R) as [X|(A & B)].
  - rewrite X in G. destruct G.
  - split.
    + apply indices_in. rewrite <- A. change i with (fst (i, rs)). now apply in_map.
    + destruct (B i rs G) as [(_ & X)|(_ & X & _)]; exact X.
Qed.

Definition tinv (t : topic) : Prop :=
  match t_spec t with
  | Computed count rf => forall i rs, mget i (t_map t) = Some rs -> 0 <= i < count /\ zlen rs = rf
  | Assigned maps => t_map t = [] \/ t_map t = map_of_assigned maps
  | Mirror count _ => forall i rs, mget i (t_map t) = Some rs -> 0 <= i < count /\ zlen rs = 1
  end.
Definition grown (t t' : topic) : Prop :=
  forall i rs, mget i (t_map t) = Some rs -> mget i (t_map t') = Some rs.

Lemma grown_refl t : grown t t.
Proof. intros i rs H. exact H. Qed.
Lemma grown_trans a b c : grown a b -> grown b c -> grown a c.
Proof. intros A B i rs H. auto. Qed.

Lemma scheduled_map m : n_map (scheduled m) = m.
Proof. destruct m; reflexivity. Qed.

Lemma pass_topic t c :
  fst (apply_actions (t, c) (topic_pass t c)) = t \/
  (exists r, fst (apply_actions (t, c) (topic_pass t c)) = with_res t r) \/
  fst (apply_actions (t, c) (topic_pass t c)) = apply_next t (compute_next_state t c).
Proof.
  unfold topic_pass, apply_actions. destruct (t_deleted t).
  - destruct (t_res t); cbn; eauto.
  - destruct (tres_eqb (t_res t) TProvisioned && (wrap_u 32 (zlen (t_map t)) <? spec_partitions (t_spec t))); cbn; eauto.
    match goal with |- context [if ?b then _ else _] => destruct b end; cbn; eauto.
Qed.

Lemma next_map t c : spec_range (t_spec t) -> tinv t ->
  tinv (apply_next t (compute_next_state t c)) /\ grown t (apply_next t (compute_next_state t c)).
Proof.
  intros SR TI. unfold compute_next_state. destruct (t_spec t) as [count rf|maps|count valid] eqn:SP.
  - assert (KEEP : forall n, n_map n = [] -> tinv (apply_next t n) /\ grown t (apply_next t n)).
    { intros n E. unfold tinv, grown, apply_next. cbn [t_spec t_map]. rewrite E, SP.
      unfold tinv in TI. rewrite SP in TI. auto. }
    assert (SCH : tinv (apply_next t (scheduled (generate_replica_map (c_spus c) (all_parts c) count rf (t_map t)))) /\
                  grown t (apply_next t (scheduled (generate_replica_map (c_spus c) (all_parts c) count rf (t_map t))))).
    { unfold tinv, grown, apply_next. cbn [t_spec t_map]. rewrite scheduled_map, SP.
      unfold tinv in TI. rewrite SP in TI. cbn in SR.
      destruct (generate_replica_map (c_spus c) (all_parts c) count rf (t_map t)) as [|e m] eqn:G; [auto|].
      rewrite <- G. split.
      - intros i rs. apply generate_range. lia.
      - intros i rs H. destruct (TI i rs H). apply generate_keeps; auto; [lia|]. now rewrite G. }
    destruct (t_res t); try exact SCH; apply KEEP; try reflexivity;
      unfold validate_computed; destruct (count =? 0); try reflexivity; destruct (rf =? 0); reflexivity.
  - unfold tinv in TI. rewrite SP in TI.
    assert (KEEP : forall n, n_map n = [] -> tinv (apply_next t n) /\ grown t (apply_next t n)).
    { intros n E. unfold tinv, grown, apply_next. cbn [t_spec t_map]. rewrite E, SP. auto. }
    assert (SET : forall n, n_map n = map_of_assigned maps -> tinv (apply_next t n) /\ grown t (apply_next t n)).
    { intros n E. unfold tinv, grown, apply_next. cbn [t_spec t_map]. rewrite E, SP.
      destruct (map_of_assigned maps) as [|e m]; [auto|]. split; [auto|].
      intros i rs H. destruct TI as [TI|TI]; rewrite TI in H; [discriminate | exact H]. }
    assert (UPD : n_map (update_assigned maps (c_spus c)) = [] \/ n_map (update_assigned maps (c_spus c)) = map_of_assigned maps).
    { unfold update_assigned. match goal with |- context [if ?b then _ else _] => destruct b end; [|now left]. destruct (map_of_assigned maps); auto. }
    assert (PEND : tinv (apply_next t (let n := update_assigned maps (c_spus c) in
        match n_res n with
        | TProvisioned => {| n_res := n_res n; n_reason := n_reason n; n_map := n_map n;
                             n_parts := create_new_partitions t (c_store c) |}
        | _ => n end)) /\ grown t (apply_next t (let n := update_assigned maps (c_spus c) in
        match n_res n with
        | TProvisioned => {| n_res := n_res n; n_reason := n_reason n; n_map := n_map n;
                             n_parts := create_new_partitions t (c_store c) |}
        | _ => n end))).
    { cbv zeta. destruct UPD as [U|U]; destruct (n_res (update_assigned maps (c_spus c)));
        try (apply KEEP; exact U); apply SET; exact U. }
    destruct (t_res t); try exact PEND; apply KEEP; try reflexivity;
      unfold validate_assigned; destruct (validate_maps maps); reflexivity.
  - assert (KEEP : forall n, n_map n = [] -> tinv (apply_next t n) /\ grown t (apply_next t n)).
    { intros n E. unfold tinv, grown, apply_next. cbn [t_spec t_map]. rewrite E, SP.
      unfold tinv in TI. rewrite SP in TI. auto. }
    assert (SCH : tinv (apply_next t (scheduled (generate_replica_map (c_spus c) (all_parts c) count 1 (t_map t)))) /\
                  grown t (apply_next t (scheduled (generate_replica_map (c_spus c) (all_parts c) count 1 (t_map t))))).
    { unfold tinv, grown, apply_next. cbn [t_spec t_map]. rewrite scheduled_map, SP.
      unfold tinv in TI. rewrite SP in TI. cbn in SR.
      destruct (generate_replica_map (c_spus c) (all_parts c) count 1 (t_map t)) as [|e m] eqn:G; [auto|].
      rewrite <- G. split.
      - intros i rs. apply generate_range. lia.
      - intros i rs H. destruct (TI i rs H). apply generate_keeps; auto; [lia|]. now rewrite G. }
    destruct (t_res t); try exact SCH; apply KEEP; try reflexivity;
      unfold validate_mirror; destruct valid; reflexivity.
Qed.

Lemma with_res_ok t r : tinv t -> tinv (with_res t r) /\ grown t (with_res t r).
Proof. intros H. split; [exact H | intros i rs G; exact G]. Qed.

Lemma pass_ok t c : spec_range (t_spec t) -> tinv t ->
  let t' := fst (apply_actions (t, c) (topic_pass t c)) in
  tinv t' /\ grown t t' /\ t_spec t' = t_spec t.
Proof.
  intros SR TI. cbv zeta. destruct (pass_topic t c) as [E|[(r & E)|E]]; rewrite E.
  - split; [exact TI|]. split; [apply grown_refl | reflexivity].
  - destruct (with_res_ok t r TI). auto.
  - destruct (next_map t c SR TI). auto.
Qed.

Lemma step_ok t c e es : spec_range (t_spec t) -> adds_ok (e :: es) (t_spec t) -> tinv t ->
  let t' := fst (tstep (t, c) e) in
  tinv t' /\ grown t t' /\ spec_range (t_spec t') /\ adds_ok es (t_spec t') /\
  (valid_spec (t_spec t) -> valid_spec (t_spec t')).
Proof.
  intros SR (AF & AS) TI. cbv zeta.
  assert (AS0 : (forall n, e <> AddPartitions n) -> adds_ok es (t_spec t)).
  { intros A. split; [exact (Forall_inv_tail AF)|]. destruct e; try exact AS. exfalso. exact (A n eq_refl). }
  destruct e as [|l|l|n|]; cbn [tstep fst].
  - destruct (pass_ok t c SR TI) as (A & B & C). rewrite C. split; [exact A|]. split; [exact B|].
    split; [exact SR|]. split; [|auto]. apply AS0; intros; discriminate.
  - split; [exact TI|]. split; [apply grown_refl|]. split; [exact SR|]. split; [|auto]. apply AS0; intros; discriminate.
  - split; [exact TI|]. split; [apply grown_refl|]. split; [exact SR|]. split; [|auto]. apply AS0; intros; discriminate.
  - pose proof (Forall_inv AF) as N. cbn in N. apply Forall_inv_tail in AF.
    unfold add_partitions. destruct (t_spec t) as [count rf|maps|count valid] eqn:SP.
    + cbn [added] in AS.
      assert (AD : 0 <= added es).
      { clear -AF. induction es as [|x t IH]; cbn [added]; [lia|].
        pose proof (Forall_inv AF) as X. apply Forall_inv_tail in AF. specialize (IH AF). destruct x; cbn in X; lia. }
      cbn in SR. unfold tinv, grown. cbn [t_spec t_map fst]. rewrite wrap_u_id by (unfold in_u; lia).
      unfold tinv in TI. rewrite SP in TI. split; [|split; [|split; [|split]]].
      * intros i rs H. destruct (TI i rs H). lia.
      * auto.
      * cbn. lia.
      * split; [exact AF|]. cbn. lia.
      * cbn. lia.
    + rewrite SP. split; [exact TI|]. split; [apply grown_refl|]. split; [exact SR|]. split; [|auto]. split; auto.
    + rewrite SP. split; [exact TI|]. split; [apply grown_refl|]. split; [exact SR|]. split; [|auto]. split; auto.
  - split; [exact TI|]. split; [intros i rs H; exact H|]. split; [exact SR|]. split; [|auto]. apply AS0; intros; discriminate.
Qed.

Lemma run_ok es : forall t c, spec_range (t_spec t) -> adds_ok es (t_spec t) -> tinv t ->
  let t' := fst (trun es (t, c)) in tinv t' /\ grown t t' /\ spec_range (t_spec t').
Proof.
  induction es as [|e es IH]; intros t c SR A TI; cbv zeta.
  - split; [exact TI|]. split; [apply grown_refl | exact SR].
  - change (trun (e :: es) (t, c)) with (trun es (tstep (t, c) e)).
    destruct (step_ok t c e es SR A TI) as (T1 & T2 & T3 & T4 & _). cbv zeta in *.
    destruct (tstep (t, c) e) as [t1 c1]. cbn [fst] in *.
    destruct (IH t1 c1 T3 T4 T1) as (X & Y & Z). split; [exact X|]. split; [|exact Z].
    eapply grown_trans; eauto.
Qed.

Lemma tinv_new r : tinv (new_topic r).
Proof. unfold tinv, new_topic. cbn. destruct r; try (intros; discriminate). now left. Qed.

Lemma adds_prefix es1 es2 r : adds_ok (es1 ++ es2) r -> adds_ok es1 r.
Proof.
  intros (F & A). apply Forall_app in F. destruct F as (F1 & F2). split; [exact F1|].
  destruct r; auto.
  assert (X : added (es1 ++ es2) = added es1 + added es2).
  { clear. induction es1 as [|x t IH]; cbn [app added]; [lia|]. destruct x; lia. }
  assert (Y : 0 <= added es2).
  { clear -F2. induction es2 as [|x t IH]; cbn [added]; [lia|].
    pose proof (Forall_inv F2) as N. apply Forall_inv_tail in F2. specialize (IH F2). destruct x; cbn in N; lia. }
  lia.
Qed.

Lemma adds_suffix es1 es2 : forall t c, spec_range (t_spec t) -> tinv t -> adds_ok (es1 ++ es2) (t_spec t) ->
  adds_ok es2 (t_spec (fst (trun es1 (t, c)))).
Proof.
  induction es1 as [|e es1 IH]; intros t c SR TI A; [exact A|].
  change (trun (e :: es1) (t, c)) with (trun es1 (tstep (t, c) e)).
  destruct (step_ok t c e (es1 ++ es2) SR A TI) as (T1 & T2 & T3 & T4 & _). cbv zeta in *.
  destruct (tstep (t, c) e) as [t1 c1]. cbn [fst] in *. auto.
Qed.

Lemma topics_keep r c es1 es2 i rs :
  spec_range r -> adds_ok (es1 ++ es2) r ->
  mget i (t_map (fst (trun es1 (new_topic r, c)))) = Some rs ->
  mget i (t_map (fst (trun (es1 ++ es2) (new_topic r, c)))) = Some rs.
Proof.
  intros SR A G.
  destruct (run_ok es1 (new_topic r) c SR (adds_prefix _ _ _ A) (tinv_new r)) as (T1 & _ & T3). cbv zeta in *.
  pose proof (adds_suffix es1 es2 (new_topic r) c SR (tinv_new r) A) as A2.
  unfold trun in *. rewrite fold_left_app. destruct (fold_left tstep es1 (new_topic r, c)) as [t1 c1].
  cbn [fst] in *. destruct (run_ok es2 t1 c1 T3 A2 T1) as (_ & X & _). unfold trun in X. apply X, G.
Qed.

(** *** invalid topics *)
Lemma invalid_computed count rf : spec_range (Computed count rf) -> ~ valid_spec (Computed count rf) ->
  validate_computed count rf = next_invalid.
Proof.
  cbn. intros R V. unfold validate_computed. destruct (Z.eqb_spec count 0); [reflexivity|].
  destruct (Z.eqb_spec rf 0); [reflexivity|]. exfalso. apply V. lia.
Qed.

Definition stuck (t : topic) : Prop :=
  (t_res t = TInit \/ t_res t = TInvalid \/ t_res t = TDeleting) /\ t_map t = [].

Lemma pass_stuck t c : spec_range (t_spec t) -> ~ valid_spec (t_spec t) -> stuck t ->
  let s' := apply_actions (t, c) (topic_pass t c) in
  stuck (fst s') /\ (c_store (snd s') = c_store c \/ c_store (snd s') = []).
Proof.
  intros SR V (R & M). cbv zeta.
  assert (NX : t_res t = TInit \/ t_res t = TInvalid -> compute_next_state t c = next_invalid).
  { intros X. unfold compute_next_state. destruct (t_spec t) as [count rf|maps|count valid].
    - destruct X as [-> | ->]; now apply invalid_computed.
    - assert (VM : validate_maps maps = false).
      { destruct (validate_maps maps) eqn:E; [|reflexivity]. exfalso. apply V. now apply validate_spec in E. }
      destruct X as [-> | ->]; unfold validate_assigned; now rewrite VM.
    - assert (valid = false) as -> by (destruct valid; [exfalso; apply V; reflexivity | reflexivity]).
      destruct X as [-> | ->]; reflexivity. }
  unfold topic_pass, apply_actions. destruct (t_deleted t).
  - destruct R as [R|[R|R]]; rewrite R; cbn; unfold stuck; cbn; rewrite ?app_nil_r; auto.
  - destruct R as [R|[R|R]].
    + rewrite (NX (or_introl R)), R. cbn. rewrite app_nil_r. unfold stuck. cbn. auto.
    + rewrite (NX (or_intror R)), R. cbn. rewrite app_nil_r. destruct (t_reason t); cbn; unfold stuck; cbn; auto.
    + assert (NK : compute_next_state t c = next TDeleting NoReason).
      { unfold compute_next_state. destruct (t_spec t); rewrite R; unfold keep_state; rewrite R; reflexivity. }
      rewrite NK, R. cbn. rewrite app_nil_r. destruct (t_reason t); cbn; unfold stuck; cbn; auto.
Qed.

Lemma step_stuck t c e es : spec_range (t_spec t) -> adds_ok (e :: es) (t_spec t) ->
  ~ valid_spec (t_spec (fst (tstep (t, c) e))) -> stuck t -> tinv t ->
  stuck (fst (tstep (t, c) e)) /\
  (c_store (snd (tstep (t, c) e)) = c_store c \/ c_store (snd (tstep (t, c) e)) = []).
Proof.
  intros SR A V S TI.
  assert (V0 : ~ valid_spec (t_spec t)).
  { intros X. apply V. destruct (step_ok t c e es SR A TI) as (_ & _ & _ & _ & Y). auto. }
  destruct e as [|l|l|n|]; cbn [tstep fst snd].
  - apply pass_stuck; auto.
  - auto.
  - auto.
  - unfold add_partitions. destruct (t_spec t); cbn [c_store]; split; auto.
  - split; [exact S|]. cbn. auto.
Qed.

Lemma run_stuck es : forall t c, spec_range (t_spec t) -> adds_ok es (t_spec t) -> tinv t -> stuck t ->
  ~ valid_spec (t_spec (fst (trun es (t, c)))) ->
  stuck (fst (trun es (t, c))) /\
  (c_store (snd (trun es (t, c))) = c_store c \/ c_store (snd (trun es (t, c))) = []).
Proof.
  induction es as [|e es IH]; intros t c SR A TI S V.
  - cbn. auto.
  - change (trun (e :: es) (t, c)) with (trun es (tstep (t, c) e)) in *.
    destruct (step_ok t c e es SR A TI) as (T1 & T2 & T3 & T4 & T5). cbv zeta in *.
    assert (V1 : ~ valid_spec (t_spec (fst (tstep (t, c) e)))).
    { intros X. apply V. clear -X T1 T3 T4.
      destruct (tstep (t, c) e) as [t1 c1]. cbn [fst] in *. clear -X T1 T3 T4.
      revert t1 c1 X T1 T3 T4. induction es as [|e es IH]; intros t c X TI SR A; [exact X|].
      change (trun (e :: es) (t, c)) with (trun es (tstep (t, c) e)).
      destruct (step_ok t c e es SR A TI) as (T1 & T2 & T3 & T4 & T5). cbv zeta in *.
      destruct (tstep (t, c) e) as [t1 c1]. cbn [fst] in *. auto. }
    destruct (step_stuck t c e es SR A V1 S TI) as (S1 & ST).
    destruct (tstep (t, c) e) as [t1 c1]. cbn [fst snd] in *.
    destruct (IH t1 c1 T3 T4 T1 S1 V) as (X & Y). split; [exact X|].
    destruct Y as [Y|Y]; [|now right]. rewrite Y. exact ST.
Qed.

Lemma invalid_never r c es :
  spec_range r -> adds_ok es r ->
  ~ valid_spec (t_spec (fst (trun es (new_topic r, c)))) ->
  t_res (fst (trun es (new_topic r, c))) <> TProvisioned /\
  t_map (fst (trun es (new_topic r, c))) = [] /\
  incl (c_store (snd (trun es (new_topic r, c)))) (c_store c).
Proof.
  intros SR A V.
  assert (S0 : stuck (new_topic r)) by (split; cbn; auto).
  destruct (run_stuck es (new_topic r) c SR A (tinv_new r) S0 V) as ((R & M) & ST).
  split; [|split; [exact M|]].
  - destruct R as [-> |[-> | ->]]; discriminate.
  - destruct ST as [-> | ->]; [apply incl_refl | intros x []].
Qed.

(** *** valid topics become provisioned *)
Definition pass_of (s : topic * cluster) : topic * cluster := apply_actions s (topic_pass (fst s) (snd s)).
Lemma step_pass s : tstep s Pass = pass_of s.
Proof. destruct s; reflexivity. Qed.
Fixpoint iter {A} (n : nat) (f : A -> A) (x : A) : A := match n with O => x | S k => f (iter k f x) end.
Lemma iter_succ_r {A} (f : A -> A) n x : iter (S n) f x = iter n f (f x).
Proof. induction n as [|n IH]; [reflexivity|]. cbn [iter] in *. now rewrite IH. Qed.
Lemma iter_add {A} n m (f : A -> A) x : iter (n + m) f x = iter n f (iter m f x).
Proof. induction n as [|n IH]; [reflexivity|]. cbn [iter Nat.add] in *. now rewrite IH. Qed.
Lemma run_passes n s : trun (passes n) s = iter n pass_of s.
Proof.
  revert s. induction n as [|n IH]; intros s; [reflexivity|].
  change (trun (passes (S n)) s) with (trun (passes n) (tstep s Pass)).
  rewrite step_pass, IH. symmetry. apply iter_succ_r.
Qed.

Lemma cluster_eta c : {| c_spus := c_spus c; c_others := c_others c; c_store := c_store c ++ [] |} = c.
Proof. destruct c. cbn. now rewrite app_nil_r. Qed.

Definition mk (t : topic) (r : tresolution) (w : treason) (m : rmap) : topic :=
  {| t_spec := t_spec t; t_deleted := t_deleted t; t_res := r; t_reason := w; t_map := m |}.

Lemma pass_next t c : t_deleted t = false ->
  tres_eqb (t_res t) TProvisioned && (wrap_u 32 (zlen (t_map t)) <? spec_partitions (t_spec t)) = false ->
  n_parts (compute_next_state t c) = [] ->
  tres_eqb (n_res (compute_next_state t c)) (t_res t) && treason_eqb (n_reason (compute_next_state t c)) (t_reason t) = false ->
  pass_of (t, c) = (apply_next t (compute_next_state t c), c).
Proof.
  intros D G P Q. unfold pass_of. cbn [fst snd]. unfold topic_pass. rewrite D, G. cbv zeta.
  cbn [apply_next t_res t_reason]. rewrite Q, P. unfold apply_actions. cbn [a_topic a_create a_delete].
  now rewrite cluster_eta.
Qed.

Lemma pass_init count rf c : 0 < count -> 0 < rf ->
  pass_of (new_topic (Computed count rf), c) = (mk (new_topic (Computed count rf)) TPending PendingReason [], c).
Proof.
  intros C R.
  assert (N : compute_next_state (new_topic (Computed count rf)) c = next_pending).
  { cbn. unfold validate_computed. replace (count =? 0) with false by (symmetry; apply Z.eqb_neq; lia).
    replace (rf =? 0) with false by (symmetry; apply Z.eqb_neq; lia). reflexivity. }
  rewrite pass_next; rewrite ?N; reflexivity.
Qed.

Lemma pass_pending t c count rf : t_spec t = Computed count rf -> t_deleted t = false ->
  t_res t = TPending \/ t_res t = TInsufficient ->
  generate_replica_map (c_spus c) (all_parts c) count rf (t_map t) <> [] ->
  pass_of (t, c) = (mk t TProvisioned NoReason (generate_replica_map (c_spus c) (all_parts c) count rf (t_map t)), c).
Proof.
  intros SP D R NE. set (m := generate_replica_map (c_spus c) (all_parts c) count rf (t_map t)) in *.
  assert (N : compute_next_state t c = {| n_res := TProvisioned; n_reason := NoReason; n_map := m; n_parts := [] |}).
  { unfold compute_next_state. rewrite SP. fold m.
    assert (SC : scheduled m = {| n_res := TProvisioned; n_reason := NoReason; n_map := m; n_parts := [] |})
      by (destruct m; [congruence | reflexivity]).
    destruct R as [-> | ->]; exact SC. }
  rewrite pass_next; rewrite ?N; auto; [|destruct R as [-> | ->]; reflexivity..].
  unfold apply_next, mk. cbn [n_res n_reason n_map]. f_equal. f_equal. destruct m; [congruence | reflexivity].
Qed.

Lemma pass_provisioned t c : t_deleted t = false -> t_res t = TProvisioned -> t_reason t = NoReason ->
  spec_partitions (t_spec t) <= wrap_u 32 (zlen (t_map t)) ->
  pass_of (t, c) = (t, {| c_spus := c_spus c; c_others := c_others c;
                          c_store := c_store c ++ create_new_partitions t (c_store c) |}).
Proof.
  intros D R W L.
  assert (N : compute_next_state t c = {| n_res := TProvisioned; n_reason := NoReason; n_map := [];
                                          n_parts := create_new_partitions t (c_store c) |}).
  { unfold compute_next_state, keep_state. rewrite R. destruct (t_spec t); reflexivity. }
  unfold pass_of. cbn [fst snd]. unfold topic_pass. rewrite D, R. cbn [tres_eqb andb].
  apply Z.ltb_ge in L. rewrite L, N. cbn [apply_next t_res t_reason n_res n_reason n_map n_parts].
  rewrite W. cbn [tres_eqb treason_eqb andb]. reflexivity.
Qed.

Lemma pass_grow t c : t_deleted t = false -> t_res t = TProvisioned ->
  wrap_u 32 (zlen (t_map t)) < spec_partitions (t_spec t) ->
  pass_of (t, c) = (with_res t TPending, c).
Proof.
  intros D R L. unfold pass_of. cbn [fst snd]. unfold topic_pass. rewrite D, R. cbn [tres_eqb andb].
  apply Z.ltb_lt in L. rewrite L. unfold apply_actions. cbn [a_topic a_create a_delete]. now rewrite cluster_eta.
Qed.

Lemma enough_nonempty c count rf old : 0 < count -> 0 < rf -> enough_servers c count rf ->
  generate_replica_map (c_spus c) (all_parts c) count rf old <> [] /\
  valid_placement (online_ids (c_spus c)) count rf old
    (generate_replica_map (c_spus c) (all_parts c) count rf old).
Proof.
  intros C R (ND & B & EN & L).
  assert (NE : generate_replica_map (c_spus c) (all_parts c) count rf old <> []) by (apply generate_nonempty; auto).
  split; [exact NE|].
  destruct (generate_valid (c_spus c) (all_parts c) count rf old ltac:(lia)); [contradiction | auto].
Qed.

Lemma placement_len online count rf old m : 0 <= count -> valid_placement online count rf old m -> zlen m = count.
Proof.
  intros C (A & _). rewrite <- (indices_len count C), <- A. unfold zlen. now rewrite map_length.
Qed.

Lemma has_partition_spec store i : has_partition store i = true <-> In i (map fst store).
Proof.
  unfold has_partition. rewrite existsb_exists, in_map_iff. split.
  - intros ([j p] & I & E). apply Z.eqb_eq in E. exists (j, p). auto.
  - intros ([j p] & E & I). cbn in E. subst j. exists (i, p). cbn. split; [exact I | apply Z.eqb_refl].
Qed.

(** all partitions already stored agree with the placement *)
Definition agree (t : topic) (c : cluster) : Prop :=
  forall i sp, In (i, sp) (c_store c) -> forall rs, In (i, rs) (t_map t) -> sp = from_replicas rs.

Lemma create_all t c : agree t c ->
  let c' := {| c_spus := c_spus c; c_others := c_others c;
               c_store := c_store c ++ create_new_partitions t (c_store c) |} in
  all_created t c' /\ create_new_partitions t (c_store c') = [].
Proof.
  intros A. cbv zeta.
  assert (ALL : all_created t {| c_spus := c_spus c; c_others := c_others c;
               c_store := c_store c ++ create_new_partitions t (c_store c) |}).
  { intros i rs I. cbn [c_store]. destruct (has_partition (c_store c) i) eqn:H.
    - apply has_partition_spec, in_map_iff in H. destruct H as ([j sp] & E & S). cbn in E. subst j.
      exists sp. rewrite (A i sp S rs I). cbn. split; [|auto]. apply in_or_app. left.
      rewrite <- (A i sp S rs I). exact S.
    - exists (from_replicas rs). cbn. split; [|auto]. apply in_or_app. right.
      unfold create_new_partitions. apply in_map_iff. exists (i, rs). split; [reflexivity|].
      apply filter_In. split; [exact I|]. cbn [fst]. now rewrite H. }
  split; [exact ALL|]. cbn [c_store]. unfold create_new_partitions at 1.
  match goal with |- map _ (filter ?f ?l) = [] => assert (F : filter f l = []) end.
  { clear -ALL. unfold all_created in ALL. cbn [c_store] in ALL.
    set (store := c_store c ++ create_new_partitions t (c_store c)) in *. clearbody store.
    assert (G : forall l, (forall e, In e l -> In e (t_map t)) ->
               filter (fun e : Z * list Z => negb (has_partition store (fst e))) l = []).
    { induction l as [|[i rs] l IH]; intros H; [reflexivity|]. cbn [filter fst].
      destruct (ALL i rs (H _ (or_introl eq_refl))) as (sp & S & _).
      assert (HP : has_partition store i = true).
      { apply has_partition_spec. change i with (fst (i, sp)). now apply in_map. }
      rewrite HP. cbn [negb]. apply IH. intros e E. apply H. now right. }
    apply G. auto. }
  rewrite F. reflexivity.
Qed.

(** a pass that finds nothing to do *)
Lemma pass_idle t c : t_deleted t = false -> t_res t = TProvisioned -> t_reason t = NoReason ->
  spec_partitions (t_spec t) <= wrap_u 32 (zlen (t_map t)) ->
  create_new_partitions t (c_store c) = [] -> pass_of (t, c) = (t, c).
Proof.
  intros D R W L E. rewrite pass_provisioned by auto. rewrite E. now rewrite cluster_eta.
Qed.
Lemma iter_fix {A} (f : A -> A) n x : f x = x -> iter n f x = x.
Proof. intros E. induction n as [|n IH]; [reflexivity|]. cbn. now rewrite IH. Qed.

Lemma computed_provisions count rf c n :
  valid_spec (Computed count rf) -> c_store c = [] -> enough_servers c count rf ->
  exists m c',
    valid_placement (online_ids (c_spus c)) count rf [] m /\
    trun (passes 2) (new_topic (Computed count rf), c) =
      (mk (new_topic (Computed count rf)) TProvisioned NoReason m, c) /\
    trun (passes (3 + n)) (new_topic (Computed count rf), c) =
      (mk (new_topic (Computed count rf)) TProvisioned NoReason m, c') /\
    all_created (mk (new_topic (Computed count rf)) TProvisioned NoReason m) c'.
Proof.
  intros (C & R) S EN. set (t0 := new_topic (Computed count rf)).
  destruct (enough_nonempty c count rf [] ltac:(lia) ltac:(lia) EN) as (NE & VP).
  set (m := generate_replica_map (c_spus c) (all_parts c) count rf []) in *.
  set (t2 := mk t0 TProvisioned NoReason m).
  set (c3 := {| c_spus := c_spus c; c_others := c_others c;
                c_store := c_store c ++ create_new_partitions t2 (c_store c) |}).
  assert (E2 : iter 2 pass_of (t0, c) = (t2, c)).
  { cbn [iter]. unfold t0. rewrite pass_init by lia.
    rewrite (pass_pending _ c count rf); auto. }
  assert (LEN : spec_partitions (t_spec t2) <= wrap_u 32 (zlen (t_map t2))).
  { cbn. rewrite (placement_len _ count rf [] m ltac:(lia) VP). rewrite wrap_u_id by (unfold in_u; lia). lia. }
  assert (AG : agree t2 c) by (intros i sp I; rewrite S in I; destruct I).
  destruct (create_all t2 c AG) as (ALL & NONE). fold c3 in ALL, NONE.
  exists m, c3. split; [exact VP|]. rewrite !run_passes. split; [exact E2|]. split; [|exact ALL].
  replace (3 + n)%nat with (n + (1 + 2))%nat by lia.
  rewrite (iter_add n), (iter_add 1), E2. cbn [iter].
  change (iter 1 pass_of (t2, c)) with (pass_of (t2, c)).
  rewrite pass_provisioned by auto. fold c3. apply iter_fix. apply pass_idle; auto.
Qed.

(** more partitions for a provisioned topic *)
Lemma computed_grows count rf m c k n :
  0 < count -> 0 < rf < 2 ^ 32 -> 0 < k -> count + k < 2 ^ 32 -> zlen m = count ->
  agree (mk (new_topic (Computed count rf)) TProvisioned NoReason m) c ->
  Forall (fun e => zlen (snd e) = rf) m -> map fst m = indices count ->
  incl (map fst (c_store c)) (map fst m) ->
  enough_servers c (count + k) rf ->
  exists m' c',
    valid_placement (online_ids (c_spus c)) (count + k) rf m m' /\
    (forall i rs, In (i, rs) m -> In (i, rs) m') /\
    trun (AddPartitions k :: passes (3 + n)) (mk (new_topic (Computed count rf)) TProvisioned NoReason m, c) =
      (mk (new_topic (Computed (count + k) rf)) TProvisioned NoReason m', c') /\
    all_created (mk (new_topic (Computed (count + k) rf)) TProvisioned NoReason m') c'.
Proof.
  intros C R K B LM AG LEN IDX INC EN.
  change (trun (AddPartitions k :: passes (3 + n)) (mk (new_topic (Computed count rf)) TProvisioned NoReason m, c))
    with (trun (passes (3 + n)) (add_partitions (mk (new_topic (Computed count rf)) TProvisioned NoReason m) k, c)).
  assert (E0 : add_partitions (mk (new_topic (Computed count rf)) TProvisioned NoReason m) k
               = mk (new_topic (Computed (count + k) rf)) TProvisioned NoReason m).
  { cbn. rewrite wrap_u_id by (unfold in_u; lia). reflexivity. }
  rewrite E0. set (t0 := mk (new_topic (Computed (count + k) rf)) TProvisioned NoReason m).
  destruct (enough_nonempty c (count + k) rf m ltac:(lia) ltac:(lia) EN) as (NE & VP).
  set (m' := generate_replica_map (c_spus c) (all_parts c) (count + k) rf m) in *.
  assert (KEEP : forall i rs, In (i, rs) m -> In (i, rs) m').
  { intros i rs I. apply mget_in. apply generate_keeps; auto; [lia| | |].
    - apply (proj1 (indices_in (count + k) i)). apply indices_in.
      assert (X : In i (indices count)) by (rewrite <- IDX; change i with (fst (i, rs)); now apply in_map).
      apply indices_in in X. lia.
    - apply mget_of_in; [rewrite IDX; apply indices_nodup | exact I].
    - rewrite Forall_forall in LEN. exact (LEN _ I). }
  set (t2 := mk t0 TProvisioned NoReason m').
  set (c3 := {| c_spus := c_spus c; c_others := c_others c;
                c_store := c_store c ++ create_new_partitions t2 (c_store c) |}).
  assert (E2 : iter 2 pass_of (t0, c) = (t2, c)).
  { cbn [iter]. rewrite pass_grow; [|reflexivity|reflexivity|].
    - rewrite (pass_pending _ c (count + k) rf); auto.
    - cbn. rewrite LM. rewrite wrap_u_id by (unfold in_u; lia). lia. }
  assert (ND' : NoDup (map fst m')) by (destruct VP as (X & _); rewrite X; apply indices_nodup).
  assert (LEN2 : spec_partitions (t_spec t2) <= wrap_u 32 (zlen (t_map t2))).
  { cbn. rewrite (placement_len _ (count + k) rf m m' ltac:(lia) VP). rewrite wrap_u_id by (unfold in_u; lia). lia. }
  assert (AG2 : agree t2 c).
  { intros i sp I rs J. cbn in J.
    assert (X : In i (map fst m)) by (apply INC; change i with (fst (i, sp)); now apply in_map).
    apply in_map_iff in X. destruct X as ([j rs0] & E & X). cbn in E. subst j.
    rewrite (AG i sp I rs0 X). f_equal.
    pose proof (mget_of_in i m' rs ND' J) as P1. pose proof (mget_of_in i m' rs0 ND' (KEEP _ _ X)) as P2.
    congruence. }
  destruct (create_all t2 c AG2) as (ALL & NONE). fold c3 in ALL, NONE.
  exists m', c3. split; [exact VP|]. split; [exact KEEP|]. split; [|exact ALL].
  rewrite run_passes. replace (3 + n)%nat with (n + (1 + 2))%nat by lia.
  rewrite (iter_add n), (iter_add 1), E2.
  change (iter 1 pass_of (t2, c)) with (pass_of (t2, c)).
  rewrite pass_provisioned by auto. fold c3. rewrite iter_fix; [reflexivity|]. apply pass_idle; auto.
Qed.

Lemma waiting_recovers t c count rf :
  t_spec t = Computed count rf -> 0 < count -> 0 < rf -> t_deleted t = false ->
  t_res t = TPending \/ t_res t = TInsufficient -> enough_servers c count rf ->
  t_res (fst (trun [Pass] (t, c))) = TProvisioned.
Proof.
  intros SP C R D RS EN. cbn [trun fold_left]. rewrite step_pass.
  destruct (enough_nonempty c count rf (t_map t) C R EN) as (NE & _).
  rewrite (pass_pending t c count rf) by auto. reflexivity.
Qed.

(** provisioned topics stay provisioned *)
Definition no_request (e : tevent) : Prop :=
  match e with AddPartitions _ | DeleteTopic => False | _ => True end.
Lemma stays t es : forall c, t_deleted t = false -> t_res t = TProvisioned -> t_reason t = NoReason ->
  spec_partitions (t_spec t) <= wrap_u 32 (zlen (t_map t)) -> Forall no_request es ->
  fst (trun es (t, c)) = t /\ incl (c_store c) (c_store (snd (trun es (t, c)))).
Proof.
  induction es as [|e es IH]; intros c D R W L F; [split; [reflexivity | apply incl_refl]|].
  change (trun (e :: es) (t, c)) with (trun es (tstep (t, c) e)).
  pose proof (Forall_inv F) as E. apply Forall_inv_tail in F. destruct e; cbn in E; try contradiction.
  - rewrite step_pass, pass_provisioned by auto.
    destruct (IH {| c_spus := c_spus c; c_others := c_others c;
                    c_store := c_store c ++ create_new_partitions t (c_store c) |} D R W L F) as (A & B).
    split; [exact A|]. intros x X. apply B. cbn. apply in_or_app. now left.
  - cbn [tstep]. destruct (IH {| c_spus := l; c_others := c_others c; c_store := c_store c |} D R W L F); auto.
  - cbn [tstep]. destruct (IH {| c_spus := c_spus c; c_others := l; c_store := c_store c |} D R W L F); auto.
Qed.

(** *** manual assignments *)
Lemma forallb_known maps c :
  forallb (fun e => forallb (fun s => zmem s (spu_ids (c_spus c))) (snd e)) maps = true <-> known_servers maps c.
Proof.
  unfold known_servers. rewrite forallb_forall, Forall_forall. split.
  - intros H e E s S. specialize (H e E). rewrite forallb_forall in H. now apply zmem_spec, H.
  - intros H e E. apply forallb_forall. intros s S. apply zmem_spec. exact (H e E s S).
Qed.

Lemma minsert_app m i r : Forall (fun e => fst e < i) m -> minsert i r m = m ++ [(i, r)].
Proof.
  induction m as [|[j q] t IH]; intros F; [reflexivity|]. cbn [minsert app].
  pose proof (Forall_inv F) as X. cbn in X. apply Forall_inv_tail in F.
  replace (i <? j) with false by (symmetry; apply Z.ltb_ge; lia).
  replace (i =? j) with false by (symmetry; apply Z.eqb_neq; lia). now rewrite IH.
Qed.
Lemma fold_minsert l : forall k m, map fst l = range k (length l) -> Forall (fun e => fst e < k) m ->
  fold_left (fun m e => minsert (fst e) (snd e) m) l m = m ++ l.
Proof.
  induction l as [|[i r] t IH]; intros k m E F; cbn [fold_left].
  - now rewrite app_nil_r.
  - cbn [length map fst] in E. rewrite range_S in E. injection E as -> E. cbn [fst snd].
    rewrite minsert_app by exact F. rewrite (IH (k + 1)); [|exact E|].
    + rewrite <- app_assoc. reflexivity.
    + apply Forall_app. split; [|repeat constructor; cbn; lia].
      eapply Forall_impl; [|exact F]. cbn. intros; lia.
Qed.
Lemma assigned_map l : assignment_ok l -> map_of_assigned l = l.
Proof.
  intros (_ & E & _). unfold map_of_assigned. rewrite (fold_minsert l 0); [reflexivity| |constructor].
  rewrite E, <- range_0. unfold zlen. now rewrite Nat2Z.id.
Qed.

Lemma assigned_provisions maps c :
  assignment_ok maps -> zlen maps < 2 ^ 32 -> known_servers maps c -> c_store c = [] ->
  exists c', trun (passes 3) (new_topic (Assigned maps), c) =
    (mk (new_topic (Assigned maps)) TProvisioned NoReason maps, c') /\
    all_created (mk (new_topic (Assigned maps)) TProvisioned NoReason maps) c'.
Proof.
  intros OK B KN S. set (t0 := new_topic (Assigned maps)).
  pose proof (proj2 (validate_spec maps B) OK) as VM.
  assert (P1 : pass_of (t0, c) = (mk t0 TPending PendingReason [], c)).
  { assert (N : compute_next_state t0 c = next_pending).
    { cbn. unfold validate_assigned. now rewrite VM. }
    rewrite pass_next; rewrite ?N; reflexivity. }
  set (t1 := mk t0 TPending PendingReason []).
  assert (P2 : pass_of (t1, c) = (mk t0 TProvisioned NoReason maps, c)).
  { assert (N : compute_next_state t1 c = {| n_res := TProvisioned; n_reason := NoReason; n_map := maps; n_parts := [] |}).
    { unfold compute_next_state. cbn [t1 t0 mk t_spec new_topic t_res]. unfold update_assigned.
      rewrite (proj2 (forallb_known maps c) KN), (assigned_map maps OK).
      destruct maps; [destruct OK; congruence | reflexivity]. }
    rewrite pass_next; rewrite ?N; try reflexivity.
    unfold apply_next. cbn. destruct maps; [destruct OK; congruence | reflexivity]. }
  set (t2 := mk t0 TProvisioned NoReason maps) in *.
  assert (AG : agree t2 c) by (intros i sp I; rewrite S in I; destruct I).
  destruct (create_all t2 c AG) as (ALL & _).
  assert (LEN : spec_partitions (t_spec t2) <= wrap_u 32 (zlen (t_map t2))) by apply Z.le_refl.
  eexists. rewrite run_passes. cbn [iter]. rewrite P1. fold t1. rewrite P2.
  rewrite (pass_provisioned t2 c eq_refl eq_refl eq_refl LEN).
  split; [reflexivity | exact ALL].
Qed.

(** an assignment naming an unknown server: the status changes at every pass, forever *)
Lemma unknown_toggles maps c :
  assignment_ok maps -> zlen maps < 2 ^ 32 -> ~ known_servers maps c -> forall n,
  (let s := trun (passes (1 + 2 * n)) (new_topic (Assigned maps), c) in
     t_res (fst s) = TPending /\ c_store (snd s) = c_store c) /\
  (let s := trun (passes (2 + 2 * n)) (new_topic (Assigned maps), c) in
     t_res (fst s) = TInvalid /\ c_store (snd s) = c_store c).
Proof.
  intros OK B KN. set (t0 := new_topic (Assigned maps)).
  pose proof (proj2 (validate_spec maps B) OK) as VM.
  set (tp := mk t0 TPending PendingReason []). set (ti := mk t0 TInvalid ErrorReason []).
  assert (P0 : pass_of (t0, c) = (tp, c)).
  { assert (N : compute_next_state t0 c = next_pending).
    { cbn. unfold validate_assigned. now rewrite VM. }
    rewrite pass_next; rewrite ?N; reflexivity. }
  assert (P1 : pass_of (tp, c) = (ti, c)).
  { assert (N : compute_next_state tp c = next_invalid).
    { unfold compute_next_state. cbn [tp t0 mk t_spec new_topic t_res]. unfold update_assigned.
      destruct (forallb (fun e => forallb (fun s => zmem s (spu_ids (c_spus c))) (snd e)) maps) eqn:E.
      - exfalso. apply KN. now apply forallb_known.
      - reflexivity. }
    rewrite pass_next; rewrite ?N; reflexivity. }
  assert (P2 : pass_of (ti, c) = (tp, c)).
  { assert (N : compute_next_state ti c = next_pending).
    { cbn. unfold validate_assigned. now rewrite VM. }
    rewrite pass_next; rewrite ?N; reflexivity. }
  assert (ODD : forall n, iter (1 + 2 * n) pass_of (t0, c) = (tp, c)).
  { induction n as [|n IH]; [exact P0|].
    replace (1 + 2 * S n)%nat with (S (S (1 + 2 * n))) by lia. cbn [iter]; rewrite IH, P1. exact P2. }
  intros n. rewrite !run_passes. split; cbv zeta.
  - rewrite ODD. auto.
  - change (2 + 2 * n)%nat with (S (1 + 2 * n)). cbn [iter]; rewrite ODD, P1. auto.
Qed.

(** ** Final forms *)
Lemma balanced_fresh spus parts count rf :
  0 < rf -> 0 <= count -> light_load parts (online_ids spus) count ->
  (forall a b, In a (online_ids spus) -> In b (online_ids spus) ->
     leader_count parts a <= leader_count parts b + 1) ->
  let created := map (fun e => from_replicas (snd e)) (generate_replica_map spus parts count rf []) in
  forall a b, In a (online_ids spus) -> In b (online_ids spus) ->
    leader_count (parts ++ created) a <= leader_count (parts ++ created) b + 1.
Proof.
  intros R C L BAL created a b A B. subst created.
  assert (APP : forall p q s, leader_count (p ++ q) s = leader_count p s + leader_count q s).
  { intros p q s. unfold leader_count. now rewrite filter_app, zlen_app. }
  rewrite !APP, <- !(new_leaders_fresh rf). now apply generate_balanced.
Qed.

Lemma two_topics :
  exists spus, (forall s, In s [0; 1] -> In s (online_ids spus)) /\
    let m1 := generate_replica_map spus [] 1 1 [] in
    let m2 := generate_replica_map spus [] 1 1 [] in
    let created := map (fun e => from_replicas (snd e)) (m1 ++ m2) in
    leader_count created 0 = 2 /\ leader_count created 1 = 0.
Proof.
  exists [(0, true); (1, true)]. split.
  - intros s [<-|[<-|[]]]; cbn; auto.
  - vm_compute. auto.
Qed.

Lemma full_server : exists parts count,
  0 < count /\ leader_count parts 5 = 65535 /\ generate_replica_map [(5, true)] parts count 1 [] = [].
Proof.
  exists (repeat {| ps_leader := 5; ps_replicas := [5] |} (Z.to_nat 65535)), 1.
  assert (L : leader_count (repeat {| ps_leader := 5; ps_replicas := [5] |} (Z.to_nat 65535)) 5 = 65535).
  { pose proof (leader_count_repeat (Z.to_nat 65535) {| ps_leader := 5; ps_replicas := [5] |}) as H.
    cbn [ps_leader] in H. rewrite H. rewrite Z2Nat.id; lia. }
  split; [lia|]. split; [exact L|]. apply full_server_never_used; [lia | exact L].
Qed.

Lemma elected_committed online s c : sane s -> consistent s -> candidate_leader online s = Some c ->
  exists r, eligible online s r /\ r_spu r = c /\ r_hw (st_leader s) <= r_leo r.
Proof.
  intros S CO H. destruct (elected online s c S H) as (r & E & SP & _). exists r.
  split; [exact E|]. split; [exact SP|]. unfold consistent in CO. rewrite Forall_forall in CO.
  apply CO. exact (proj1 E).
Qed.

Lemma after_reports online rs o s c :
  let s' := fold_left ps_merge (rs ++ [o]) s in
  unique_servers s -> complete_report (servers (fold_left ps_merge rs s)) o -> sane s' ->
  candidate_leader online s' = Some c ->
  exists r, In r (st_replicas s') /\ r_spu r = c /\ online c = true /\ r_hw (st_leader s') <= r_leo r.
Proof.
  intros s' U C S H. destruct (elected_committed online s' c S) as (r & (I & O & _) & SP & L).
  - now apply reports_consistent.
  - exact H.
  - exists r. rewrite <- SP. auto.
Qed.

Lemma ahead_loses : exists online s r c,
  sane s /\ consistent s /\ eligible online s r /\ candidate_leader online s = Some c /\ r_spu r <> c /\
  forall r', In r' (st_replicas s) -> r_spu r' = c -> lag (st_leader s) r < lag (st_leader s) r'.
Proof.
  exists (fun _ => true),
    {| st_res := POnline; st_leader := {| r_spu := 0; r_hw := 7; r_leo := 10 |}; st_lsr := 0;
       st_replicas := [{| r_spu := 1; r_hw := 7; r_leo := 11 |}; {| r_spu := 2; r_hw := 7; r_leo := 7 |}] |},
    {| r_spu := 1; r_hw := 7; r_leo := 11 |}, 2.
  split; [split; [cbn; lia | repeat constructor; cbn; lia]|].
  split; [repeat constructor; cbn; lia|].
  split; [split; [now left | split; [reflexivity | cbn; lia]]|].
  split; [reflexivity|]. split; [cbn; lia|].
  intros r' [<-|[<-|[]]]; cbn; lia.
Qed.

Lemma committed_unchecked : exists online s c,
  sane s /\ candidate_leader online s = Some c /\
  forall r, In r (st_replicas s) -> r_spu r = c -> r_leo r < r_hw (st_leader s).
Proof.
  exists (fun _ => true),
    {| st_res := POnline; st_leader := {| r_spu := 0; r_hw := 10; r_leo := 10 |}; st_lsr := 0;
       st_replicas := [{| r_spu := 1; r_hw := 7; r_leo := 7 |}] |}, 1.
  split; [split; [cbn; lia | repeat constructor; cbn; lia]|]. split; [reflexivity|].
  intros r [<-|[]]; cbn; lia.
Qed.

(** a report in which the position of a follower is unknown keeps the old position of that
    follower, while the committed offset of the leader moves on *)
Lemma stale_report : exists online s o c,
  unique_servers s /\ consistent s /\ sane (ps_merge s o) /\
  candidate_leader online (ps_merge s o) = Some c /\
  forall r, In r (st_replicas (ps_merge s o)) -> r_spu r = c -> r_leo r < r_hw (st_leader (ps_merge s o)).
Proof.
  exists (fun _ => true),
    {| st_res := POnline; st_leader := {| r_spu := 0; r_hw := 7; r_leo := 7 |}; st_lsr := 0;
       st_replicas := [{| r_spu := 1; r_hw := 7; r_leo := 7 |}] |},
    {| st_res := POnline; st_leader := {| r_spu := 0; r_hw := 10; r_leo := 10 |}; st_lsr := 0;
       st_replicas := [{| r_spu := 1; r_hw := -1; r_leo := -1 |}] |}, 1.
  split; [repeat constructor; cbn; intuition lia|]. split; [repeat constructor; cbn; lia|].
  split; [split; [cbn; lia | repeat constructor; cbn; lia]|]. split; [reflexivity|].
  intros r [<-|[]]; cbn; lia.
Qed.

(** Deletion: the partitions go, and nothing brings them back. *)
Definition gone (s : topic * cluster) : Prop := t_res (fst s) = TDeleting -> t_deleted (fst s) = true /\ c_store (snd s) = [].
Lemma never_deleting t c : t_res t <> TDeleting -> n_res (compute_next_state t c) <> TDeleting.
Proof.
  intros N. unfold compute_next_state, validate_computed, validate_assigned, validate_mirror, scheduled, update_assigned, keep_state.
  destruct (t_spec t); destruct (t_res t) eqn:R; try contradiction; repeat match goal with
  | |- context [match ?x with _ => _ end] => destruct x; cbn [n_res]
  end; try discriminate; try congruence.
Qed.
Lemma gone_step s e : gone s -> gone (tstep s e).
Proof.
  destruct s as [t c]. unfold gone. cbn [fst snd]. intros G. destruct e as [|l|l|n|]; cbn [tstep fst snd].
  - unfold apply_actions, topic_pass. destruct (t_deleted t) eqn:D.
    + destruct (t_res t) eqn:R; cbn [a_topic a_create a_delete fst snd t_res t_deleted c_store with_res app]; try (intros _; split; [assumption|reflexivity]).
      intros _. rewrite app_nil_r. destruct (G eq_refl). auto.
    + assert (t_res t <> TDeleting) as N by (intros R; destruct (G R); congruence).
      destruct (_ && _); [cbn; discriminate|]. cbv zeta. pose proof (never_deleting t c N) as ND.
      destruct (_ && _); cbn [a_topic a_create a_delete fst snd]; intros R; [contradiction|]. unfold apply_next in R. cbn [t_res] in R. contradiction.
  - exact G.
  - exact G.
  - unfold add_partitions. destruct (t_spec t); exact G.
  - cbn [t_res t_deleted]. intros R. destruct (G R). auto.
Qed.
Lemma gone_run es : forall s, gone s -> gone (trun es s).
Proof. induction es as [|e es IH]; intros s G; [exact G|]. cbn [trun fold_left]. apply IH, gone_step, G. Qed.
Definition removed (s : topic * cluster) : Prop := t_deleted (fst s) = true /\ t_res (fst s) = TDeleting /\ c_store (snd s) = [].
Lemma removed_step s e : removed s -> removed (tstep s e).
Proof.
  destruct s as [t c]. unfold removed. cbn [fst snd]. intros (D & R & S). destruct e as [|l|l|n|]; cbn [tstep fst snd]; auto.
  - unfold apply_actions, topic_pass. rewrite D, R. cbn. rewrite S. auto.
  - unfold add_partitions. destruct (t_spec t); auto.
Qed.
Lemma removed_run es : forall s, removed s -> removed (trun es s).
Proof. induction es as [|e es IH]; intros s G; [exact G|]. cbn [trun fold_left]. apply IH, removed_step, G. Qed.
Lemma trun_app a b s : trun (a ++ b) s = trun b (trun a s).
Proof. apply fold_left_app. Qed.
Lemma deleted_gone r c es1 es2 : c_store (snd (trun (es1 ++ DeleteTopic :: Pass :: es2) (new_topic r, c))) = [].
Proof.
  rewrite trun_app. assert (gone (trun es1 (new_topic r, c))) as G by (apply gone_run; intros R; discriminate R).
  destruct (trun es1 (new_topic r, c)) as [t k]. cbn [trun fold_left]. change (fold_left tstep es2 ?s) with (trun es2 s).
  apply removed_run. unfold gone in G. cbn [fst snd] in G. cbn [tstep]. unfold apply_actions, topic_pass, removed. cbn [t_deleted t_res].
  destruct (t_res t) eqn:R; cbn [a_topic a_create a_delete fst snd t_res t_deleted c_store with_res app]; auto.
  destruct (G eq_refl) as (_ & S). rewrite S. auto.
Qed.
