(** Proofs about scheduling, election, assignments and topics. *)
From Coq Require Import Permutation.
From Verif Require Import Base ListFacts.
From Verif Require Import ControlModel ControlSpec.

Lemma zmem_spec x l : zmem x l = true <-> In x l.
Proof.
  unfold zmem. rewrite existsb_exists. split.
  - intros (y & I & E). apply Z.eqb_eq in E. subst. exact I.
  - intros I. exists x. split; [exact I | apply Z.eqb_refl].
Qed.
Lemma zmem_false x l : zmem x l = false <-> ~ In x l.
Proof. rewrite <- zmem_spec. destruct (zmem x l); split; congruence. Qed.

Lemma insert_sorted_perm x l : Permutation (insert_sorted x l) (x :: l).
Proof.
  induction l as [|y t IH]; cbn; [reflexivity|].
  destruct (x <=? y); [reflexivity|].
  rewrite IH. apply perm_swap.
Qed.
Lemma sort_perm l : Permutation (sort l) l.
Proof.
  induction l as [|x t IH]; cbn; [reflexivity|].
  rewrite insert_sorted_perm. now apply perm_skip.
Qed.
Lemma sort_in x l : In x (sort l) <-> In x l.
Proof. split; apply Permutation_in; [|symmetry]; apply sort_perm. Qed.
Lemma sort_nodup l : NoDup l -> NoDup (sort l).
Proof. apply Permutation_NoDup. symmetry. apply sort_perm. Qed.
Lemma sort_length l : length (sort l) = length l.
Proof. apply Permutation_length, sort_perm. Qed.

(** ** find_suitable_spu *)

Definition fs_inv (w : Z -> Z) (anti seen : list Z) (acc : option Z * Z) : Prop :=
  match fst acc with
  | None => snd acc = 65535 /\ forall t, In t seen -> ~ In t anti -> 65535 <= w t
  | Some s => snd acc = w s /\ w s < 65535 /\ In s seen /\ ~ In s anti /\
              forall t, In t seen -> ~ In t anti -> w s <= w t
  end.

Lemma fs_inv_fold w anti spus : forall seen acc,
  fs_inv w anti seen acc -> fs_inv w anti (seen ++ spus) (fold_left (suitable_step w anti) spus acc).
Proof.
  induction spus as [|s t IH]; intros seen acc H; cbn [fold_left].
  - now rewrite app_nil_r.
  - replace (seen ++ s :: t) with ((seen ++ [s]) ++ t) by (rewrite <- app_assoc; reflexivity).
    apply IH. unfold suitable_step.
    destruct (zmem s anti) eqn:M.
    + apply zmem_spec in M. unfold fs_inv in *. destruct acc as [[c|] m]; cbn [fst snd] in *.
      * destruct H as (H1 & H2 & H3 & H4 & H5). repeat split; auto.
        { apply in_or_app. now left. }
        { intros u U NU. apply in_app_or in U. destruct U as [U|[<-|[]]]; [auto | contradiction]. }
      * destruct H as (H1 & H2). split; [exact H1|].
        intros u U NU. apply in_app_or in U. destruct U as [U|[<-|[]]]; [auto | contradiction].
    + apply zmem_false in M. unfold fs_inv in *. destruct acc as [[c|] m]; cbn [fst snd] in *.
      * destruct H as (H1 & H2 & H3 & H4 & H5). destruct (w s <? m) eqn:L; cbn [fst snd].
        { apply Z.ltb_lt in L. repeat split; auto; try lia.
          - apply in_or_app. right. now left.
          - intros u U NU. apply in_app_or in U. destruct U as [U|[<-|[]]]; [|lia].
            specialize (H5 u U NU). lia. }
        { apply Z.ltb_ge in L. repeat split; auto.
          - apply in_or_app. now left.
          - intros u U NU. apply in_app_or in U. destruct U as [U|[<-|[]]]; [auto|lia]. }
      * destruct H as (H1 & H2). destruct (w s <? m) eqn:L; cbn [fst snd].
        { apply Z.ltb_lt in L. repeat split; auto; try lia.
          - apply in_or_app. right. now left.
          - intros u U NU. apply in_app_or in U. destruct U as [U|[<-|[]]]; [|lia].
            specialize (H2 u U NU). lia. }
        { apply Z.ltb_ge in L. split; [exact H1|].
          intros u U NU. apply in_app_or in U. destruct U as [U|[<-|[]]]; [auto|lia]. }
Qed.

Lemma find_suitable_inv w spus anti :
  match find_suitable_spu w spus anti with
  | None => forall t, In t spus -> ~ In t anti -> 65535 <= w t
  | Some s => w s < 65535 /\ In s spus /\ ~ In s anti /\
              forall t, In t spus -> ~ In t anti -> w s <= w t
  end.
Proof.
  pose proof (fs_inv_fold w anti spus [] (None, 65535)) as H.
  unfold find_suitable_spu. unfold fs_inv in H. cbn [fst snd app] in H.
  assert (P : snd (@None Z, 65535) = 65535 /\ forall t : Z, In t [] -> ~ In t anti -> 65535 <= w t)
    by (split; [reflexivity | intros t []]).
  specialize (H P).
  destruct (fst (fold_left (suitable_step w anti) spus (None, 65535))).
  - tauto.
  - tauto.
Qed.

(** ** place_replicas *)


Definition bump (f : Z -> Z) (new : list Z) (s : Z) : Z :=
  if zmem s new then wrap_u 16 (f s + 1) else f s.

(** placing the followers: [reserved] non-empty *)
Lemma place_followers n online : forall reserved g rs g',
  reserved <> [] ->
  place_replicas n online reserved g = Some (rs, g') ->
  exists new, rs = reserved ++ new /\ length new = n /\ NoDup new /\
    incl new online /\ (forall s, In s new -> ~ In s reserved) /\
    (forall s, g_leaders g' s = g_leaders g s) /\
    (forall s, g_followers g' s = bump (g_followers g) new s).
Proof.
  induction n as [|n IH]; intros reserved g rs g' NE H.
  - cbn in H. injection H as <- <-. exists []. rewrite app_nil_r. repeat split; auto.
    + constructor.
    + intros x [].
  - cbn [place_replicas] in H. destruct reserved as [|r0 rt]; [congruence|].
    set (reserved := r0 :: rt) in *.
    pose proof (find_suitable_inv (g_followers g) online reserved) as F.
    destruct (find_suitable_spu (g_followers g) online reserved) as [s|]; [|discriminate].
    destruct F as (F1 & F2 & F3 & F4).
    assert (NE' : reserved ++ [s] <> []) by (intros X; apply app_eq_nil in X; destruct X; discriminate).
    destruct (IH _ _ _ _ NE' H) as (new & E & L & ND & INC & DIS & GL & GF).
    assert (NS : ~ In s new).
    { intros X. apply (DIS s X). apply in_or_app. right. now left. }
    exists (s :: new). split; [|split; [|split; [|split; [|split; [|split]]]]].
    + rewrite E, <- app_assoc. reflexivity.
    + cbn. now rewrite L.
    + constructor; auto.
    + intros x [<-|X]; auto.
    + intros x [<-|X]; auto. intros Y. apply (DIS x X). apply in_or_app. now left.
    + intros x. rewrite GL. reflexivity.
    + intros x. rewrite GF. unfold bump. cbn [increase_followers g_followers zmem existsb].
      destruct (Z.eqb_spec x s) as [->|D]; cbn [orb].
      * apply zmem_false in NS. rewrite NS. reflexivity.
      * reflexivity.
Qed.

Lemma place_all n online g rs g' :
  (0 < n)%nat ->
  place_replicas n online [] g = Some (rs, g') ->
  exists s new, rs = s :: new /\ length rs = n /\ NoDup rs /\ incl rs online /\
    g_leaders g s < 65535 /\ (forall t, In t online -> g_leaders g s <= g_leaders g t) /\
    (forall t, g_leaders g' t = bump (g_leaders g) [s] t) /\
    (forall t, g_followers g' t = bump (g_followers g) new t).
Proof.
  intros N H. destruct n as [|n]; [lia|]. cbn [place_replicas] in H.
  pose proof (find_suitable_inv (g_leaders g) online []) as F.
  destruct (find_suitable_spu (g_leaders g) online []) as [s|]; [|discriminate].
  destruct F as (F1 & F2 & F3 & F4). cbn [app] in H.
  destruct (place_followers n online [s] (increase_leaders g s) rs g' ltac:(discriminate) H)
    as (new & E & L & ND & INC & DIS & GL & GF).
  exists s, new. split; [exact E|]. split; [rewrite E; cbn; now rewrite L|].
  split; [|split; [|split; [exact F1|split; [|split]]]].
  - rewrite E. cbn [app]. constructor; auto. intros X. apply (DIS s X). now left.
  - rewrite E. intros x [<-|X]; auto.
  - intros t T. apply F4; auto.
  - intros t. rewrite GL. unfold bump. cbn [increase_leaders g_leaders zmem existsb].
    destruct (Z.eqb_spec t s) as [->|D]; reflexivity.
  - intros t. rewrite GF. reflexivity.
Qed.

(** a server outside a shorter list exists *)
Lemma exists_fresh (online : list Z) : forall reserved,
  NoDup online -> (length reserved < length online)%nat ->
  exists t, In t online /\ ~ In t reserved.
Proof.
  intros reserved ND L.
  destruct (existsb (fun t => negb (zmem t reserved)) online) eqn:E.
  - apply existsb_exists in E. destruct E as (t & I & M). exists t. split; [exact I|].
    apply zmem_false. now apply negb_true_iff.
  - exfalso. assert (INC : incl online reserved).
    { intros x X. apply zmem_spec.
      destruct (zmem x reserved) eqn:M; [reflexivity|].
      assert (T : existsb (fun t => negb (zmem t reserved)) online = true).
      { apply existsb_exists. exists x. rewrite M. auto. }
      congruence. }
    pose proof (NoDup_incl_length ND INC). lia.
Qed.

Lemma place_followers_some n online : forall reserved g,
  reserved <> [] -> NoDup online -> (length reserved + n <= length online)%nat ->
  (forall s, In s online -> ~ In s reserved -> g_followers g s < 65535) ->
  exists r, place_replicas n online reserved g = Some r.
Proof.
  induction n as [|n IH]; intros reserved g NE ND LEN LOW.
  - eexists. reflexivity.
  - cbn [place_replicas]. destruct reserved as [|r0 rt]; [congruence|].
    set (reserved := r0 :: rt) in *.
    pose proof (find_suitable_inv (g_followers g) online reserved) as F.
    destruct (find_suitable_spu (g_followers g) online reserved) as [s|].
    + destruct F as (F1 & F2 & F3 & F4). apply IH.
      * intros X. apply app_eq_nil in X. destruct X; discriminate.
      * exact ND.
      * rewrite app_length. cbn [length]. lia.
      * intros x X NX. cbn [increase_followers g_followers].
        assert (N1 : ~ In x reserved) by (intros Y; apply NX, in_or_app; now left).
        assert (N2 : x <> s) by (intros ->; apply NX, in_or_app; right; now left).
        apply Z.eqb_neq in N2. rewrite N2. auto.
    + destruct (exists_fresh online reserved ND) as (t & T & NT); [lia|].
      specialize (F t T NT). specialize (LOW t T NT). lia.
Qed.

Lemma place_some n online g :
  NoDup online -> (n <= length online)%nat ->
  (forall s, In s online -> g_leaders g s < 65535 /\ g_followers g s < 65535) ->
  exists r, place_replicas n online [] g = Some r.
Proof.
  intros ND LEN LOW. destruct n as [|n]; [eexists; reflexivity|]. cbn [place_replicas].
  pose proof (find_suitable_inv (g_leaders g) online []) as F.
  destruct (find_suitable_spu (g_leaders g) online []) as [s|].
  - apply place_followers_some; auto; [discriminate|]. intros x X _. apply LOW, X.
  - destruct online as [|t online]; [cbn in LEN; lia|].
    specialize (F t (or_introl eq_refl) (fun f => f)). destruct (LOW t (or_introl eq_refl)). lia.
Qed.

(** not enough servers: no placement *)
Lemma place_none n online g :
  (length (nodup Z.eq_dec online) < n)%nat -> place_replicas n online [] g = None.
Proof.
  intros L. destruct (place_replicas n online [] g) as [[rs g']|] eqn:E; [|reflexivity].
  exfalso. destruct (place_all n online g rs g' ltac:(lia) E) as (s & new & _ & LEN & ND & INC & _).
  assert (X : incl rs (nodup Z.eq_dec online)) by (intros x I; apply nodup_In; auto).
  pose proof (NoDup_incl_length ND X). lia.
Qed.

(** ** gen_partitions *)

Definition range (i : Z) (n : nat) : list Z := map (fun k => i + Z.of_nat k) (seq 0 n).
Lemma range_S i n : range i (S n) = i :: range (i + 1) n.
Proof.
  unfold range. cbn [seq map]. f_equal; [lia|].
  rewrite <- seq_shift, map_map. apply map_ext. intros. lia.
Qed.
Lemma range_0 n : range 0 (Z.to_nat n) = indices n.
Proof. unfold range, indices. apply map_ext. intros. lia. Qed.

Lemma kept_some old rf i rs : kept old rf i = Some rs <-> already_placed old rf i rs.
Proof.
  unfold kept, already_placed. destruct (mget i old) as [q|].
  - destruct (zlen q =? rf) eqn:E.
    + apply Z.eqb_eq in E. split; [intros X; injection X as <-; auto | intros (X & _); congruence].
    + apply Z.eqb_neq in E. split; [discriminate | intros (X & Y); injection X as <-; contradiction].
  - split; [discriminate | intros (X & _); discriminate].
Qed.
Lemma kept_none old rf i : kept old rf i = None <-> forall rs, ~ already_placed old rf i rs.
Proof.
  split.
  - intros K rs P. apply kept_some in P. congruence.
  - intros H. destruct (kept old rf i) as [rs|] eqn:K; [|reflexivity].
    apply kept_some in K. exfalso. exact (H rs K).
Qed.

Lemma place_zero online g : place_replicas 0 online [] g = Some ([], g).
Proof. reflexivity. Qed.

Lemma place_fresh rf online g rs g' :
  0 <= rf -> place_replicas (Z.to_nat rf) online [] g = Some (rs, g') -> fresh_placement online rf rs.
Proof.
  intros R H. destruct (Z.eq_dec rf 0) as [->|NZ].
  - cbn in H. injection H as <- <-. repeat split; [constructor | intros x []].
  - destruct (place_all (Z.to_nat rf) _ _ _ _ ltac:(lia) H) as (s & new & _ & LEN & ND & INC & _).
    split; [unfold zlen; lia|]. auto.
Qed.

Lemma gen_valid n online rf old : 0 <= rf -> forall i g m g',
  gen_partitions n i online rf old g = Some (m, g') ->
  map fst m = range i n /\
  forall j rs, In (j, rs) m ->
    already_placed old rf j rs \/
    ((forall rs', ~ already_placed old rf j rs') /\ fresh_placement online rf rs).
Proof.
  intros R. induction n as [|n IH]; intros i g m g' H; cbn [gen_partitions] in H.
  - injection H as <- <-. split; [reflexivity | intros j rs []].
  - rewrite range_S. destruct (kept old rf i) as [rs|] eqn:K.
    + destruct (gen_partitions n (i + 1) online rf old g) as [[m1 g1]|] eqn:E; [|discriminate].
      injection H as <- <-. destruct (IH _ _ _ _ E) as (A & B). split.
      * cbn. now rewrite A.
      * intros j q [X|X]; [|now apply B]. injection X as <- <-. left. now apply kept_some.
    + destruct (place_replicas (Z.to_nat rf) online [] g) as [[rs g1]|] eqn:P; [|discriminate].
      destruct (gen_partitions n (i + 1) online rf old g1) as [[m1 g2]|] eqn:E; [|discriminate].
      injection H as <- <-. destruct (IH _ _ _ _ E) as (A & B). split.
      * cbn. now rewrite A.
      * intros j q [X|X]; [|now apply B]. injection X as <- <-. right. split.
        { now apply kept_none. }
        { eapply place_fresh; eauto. }
Qed.

(** counters stay small *)
Definition low (online : list Z) (g : groups) (k : Z) : Prop :=
  forall s, In s online -> 0 <= g_leaders g s /\ g_leaders g s + k < 65535 /\
                          0 <= g_followers g s /\ g_followers g s + k < 65535.

Lemma bump_low f new s : 0 <= f s < 65535 -> f s <= bump f new s <= f s + 1.
Proof.
  intros H. unfold bump. destruct (zmem s new); [|lia].
  rewrite wrap_u_id; [lia|]. unfold in_u. change (2 ^ 16) with 65536. lia.
Qed.

Lemma place_low rf online g rs g' k :
  0 <= k -> low online g (k + 1) -> place_replicas (Z.to_nat rf) online [] g = Some (rs, g') ->
  low online g' k.
Proof.
  intros K L H. destruct (Z_le_gt_dec rf 0) as [Z0|P].
  - replace (Z.to_nat rf) with O in H by lia. cbn in H. injection H as <- <-.
    intros s S. specialize (L s S). lia.
  - destruct (place_all (Z.to_nat rf) _ _ _ _ ltac:(lia) H) as (s0 & new & _ & _ & _ & _ & _ & _ & GL & GF).
    intros s S. specialize (L s S). rewrite GL, GF.
    pose proof (bump_low (g_leaders g) [s0] s). pose proof (bump_low (g_followers g) new s). lia.
Qed.

Lemma gen_some n online rf old : 0 <= rf -> NoDup online -> rf <= zlen online -> forall i g,
  low online g (Z.of_nat n) ->
  exists r, gen_partitions n i online rf old g = Some r.
Proof.
  intros R ND LEN. induction n as [|n IH]; intros i g L; cbn [gen_partitions].
  - eexists. reflexivity.
  - destruct (kept old rf i) as [rs|].
    + destruct (IH (i + 1) g) as ([m g'] & E); [intros s S; specialize (L s S); lia|].
      rewrite E. eexists. reflexivity.
    + destruct (place_some (Z.to_nat rf) online g ND) as ([rs g1] & P).
      * unfold zlen in LEN. lia.
      * intros s S. specialize (L s S). lia.
      * rewrite P. destruct (IH (i + 1) g1) as ([m g'] & E).
        { eapply place_low; [| |exact P]; [lia|]. intros s S. specialize (L s S). lia. }
        rewrite E. eexists. reflexivity.
Qed.

(** one partition that must be placed and cannot be: no placement at all *)
Lemma gen_none n online rf old : (length (nodup Z.eq_dec online) < Z.to_nat rf)%nat -> forall i g,
  (exists j, i <= j < i + Z.of_nat n /\ kept old rf j = None) ->
  gen_partitions n i online rf old g = None.
Proof.
  intros L. induction n as [|n IH]; intros i g (j & J & K); [lia|]. cbn [gen_partitions].
  destruct (kept old rf i) as [rs|] eqn:KI.
  - rewrite IH; [reflexivity|]. exists j. split; [|exact K].
    assert (j <> i) by congruence. lia.
  - rewrite place_none by exact L. reflexivity.
Qed.
Lemma gen_all_kept n online rf old : forall i g,
  (forall j, i <= j < i + Z.of_nat n -> kept old rf j <> None) ->
  exists r, gen_partitions n i online rf old g = Some r.
Proof.
  induction n as [|n IH]; intros i g H; cbn [gen_partitions]; [eexists; reflexivity|].
  destruct (kept old rf i) as [rs|] eqn:K.
  - destruct (IH (i + 1) g) as ([m g'] & E); [intros; apply H; lia|]. rewrite E. eexists. reflexivity.
  - exfalso. apply (H i); [lia|exact K].
Qed.

(** *** counters of existing partitions *)
Lemma fold_followers p l : forall g s,
  g_leaders (fold_left (fun g x => if x =? ps_leader p then g else increase_followers g x) l g) s
    = g_leaders g s /\
  g_followers (fold_left (fun g x => if x =? ps_leader p then g else increase_followers g x) l g) s mod 2 ^ 16
    = (g_followers g s + zlen (filter (fun r => r =? s) (filter (fun r => negb (r =? ps_leader p)) l))) mod 2 ^ 16.
Proof.
  induction l as [|x t IH]; intros g s; cbn [fold_left filter].
  - split; [reflexivity|]. change (zlen (@nil Z)) with 0. f_equal. lia.
  - destruct (x =? ps_leader p) eqn:E; cbn [negb].
    + apply IH.
    + destruct (IH (increase_followers g x) s) as (A & B). rewrite A, B.
      cbn [increase_followers g_leaders g_followers filter].
      split; [reflexivity|]. destruct (Z.eqb_spec s x) as [->|D].
      * rewrite Z.eqb_refl, zlen_cons. unfold wrap_u. rewrite Zplus_mod_idemp_l. f_equal. lia.
      * replace (x =? s) with false by (symmetry; apply Z.eqb_neq; congruence). reflexivity.
Qed.

Definition u16_groups (g : groups) : Prop :=
  forall s, 0 <= g_leaders g s < 2 ^ 16 /\ 0 <= g_followers g s < 2 ^ 16.
Lemma wrap_range n x : 0 <= n -> 0 <= wrap_u n x < 2 ^ n.
Proof. intros. unfold wrap_u. apply Z.mod_pos_bound. apply pow2_pos. lia. Qed.
Lemma u16_leaders g s : u16_groups g -> u16_groups (increase_leaders g s).
Proof.
  intros U x. destruct (U x). cbn. split; auto. destruct (x =? s); auto. apply wrap_range. lia.
Qed.
Lemma u16_followers g s : u16_groups g -> u16_groups (increase_followers g s).
Proof.
  intros U x. destruct (U x). cbn. split; auto. destruct (x =? s); auto. apply wrap_range. lia.
Qed.
Lemma u16_count g p : u16_groups g -> u16_groups (count_partition g p).
Proof.
  intros U. unfold count_partition. generalize (u16_leaders g (ps_leader p) U).
  generalize (increase_leaders g (ps_leader p)). clear U g.
  induction (ps_replicas p) as [|x t IH]; intros g U; cbn [fold_left]; [exact U|].
  apply IH. destruct (x =? ps_leader p); auto using u16_followers.
Qed.

Lemma group_by_gen parts : forall g, u16_groups g ->
  let g' := fold_left count_partition parts g in
  u16_groups g' /\
  (forall s, g_leaders g' s = (g_leaders g s + leader_count parts s) mod 2 ^ 16) /\
  (forall s, g_followers g' s = (g_followers g s + follower_count parts s) mod 2 ^ 16).
Proof.
  induction parts as [|p t IH]; intros g U; cbn [fold_left]; cbv zeta.
  - split; [exact U|]. unfold leader_count, follower_count. cbn [filter flat_map].
    split; intros s; change (zlen (@nil Z)) with 0; change (zlen (@nil pspec)) with 0;
      destruct (U s); rewrite Z.mod_small by lia; lia.
  - destruct (IH (count_partition g p) (u16_count g p U)) as (A & B & C). cbv zeta in *.
    split; [exact A|]. split; intros s.
    + rewrite B. unfold count_partition.
      destruct (fold_followers p (ps_replicas p) (increase_leaders g (ps_leader p)) s) as (F & _).
      rewrite F. unfold leader_count. cbn [increase_leaders g_leaders filter].
      destruct (Z.eqb_spec s (ps_leader p)) as [->|D].
      * rewrite Z.eqb_refl, zlen_cons. unfold wrap_u. rewrite Zplus_mod_idemp_l. f_equal. lia.
      * replace (ps_leader p =? s) with false by (symmetry; apply Z.eqb_neq; congruence). reflexivity.
    + rewrite C. unfold count_partition.
      destruct (fold_followers p (ps_replicas p) (increase_leaders g (ps_leader p)) s) as (_ & F).
      rewrite <- Zplus_mod_idemp_l. rewrite F. rewrite Zplus_mod_idemp_l.
      unfold follower_count. cbn [flat_map increase_leaders g_followers].
      rewrite filter_app, zlen_app. f_equal. lia.
Qed.

Lemma group_by_counts parts s :
  g_leaders (group_by_spu parts) s = leader_count parts s mod 2 ^ 16 /\
  g_followers (group_by_spu parts) s = follower_count parts s mod 2 ^ 16.
Proof.
  destruct (group_by_gen parts no_groups) as (_ & A & B).
  - intros x. cbn. lia.
  - cbv zeta in *. unfold group_by_spu. rewrite A, B. cbn [no_groups g_leaders g_followers].
    split; f_equal; lia.
Qed.

Lemma leader_count_nonneg parts s : 0 <= leader_count parts s.
Proof. apply zlen_nonneg. Qed.
Lemma follower_count_nonneg parts s : 0 <= follower_count parts s.
Proof. apply zlen_nonneg. Qed.

Lemma low_of_light parts online count :
  0 <= count -> light_load parts online count -> low online (group_by_spu parts) count.
Proof.
  intros C L s S. destruct (L s S) as (A & B). destruct (group_by_counts parts s) as (X & Y).
  rewrite X, Y. pose proof (leader_count_nonneg parts s). pose proof (follower_count_nonneg parts s).
  change (2 ^ 16) with 65536. rewrite !Z.mod_small by lia. lia.
Qed.

(** *** leader balance *)
Lemma new_leaders_cons old rf i rs m s :
  new_leaders old rf ((i, rs) :: m) s =
  (match kept old rf i with Some _ => 0 | None => if hd 0 rs =? s then 1 else 0 end) + new_leaders old rf m s.
Proof.
  unfold new_leaders. cbn [filter fst snd]. destruct (kept old rf i); [lia|].
  destruct (hd 0 rs =? s); [rewrite zlen_cons; lia | lia].
Qed.

Lemma gen_fewest n online rf old : 0 < rf -> forall i g m g',
  low online g (Z.of_nat n) ->
  gen_partitions n i online rf old g = Some (m, g') ->
  forall m1 j rs m2, m = m1 ++ (j, rs) :: m2 -> kept old rf j = None ->
  In (hd 0 rs) online /\
  forall t, In t online ->
    g_leaders g (hd 0 rs) + new_leaders old rf m1 (hd 0 rs) <= g_leaders g t + new_leaders old rf m1 t.
Proof.
  intros R. induction n as [|n IH]; intros i g m g' L H m1 j rs m2 E K; cbn [gen_partitions] in H.
  - injection H as <- <-. destruct m1; discriminate.
  - destruct (kept old rf i) as [q|] eqn:KI.
    + destruct (gen_partitions n (i + 1) online rf old g) as [[m' g1]|] eqn:G; [|discriminate].
      injection H as <- <-. destruct m1 as [|[i1 q1] m1]; cbn [app] in E.
      * injection E as <- <- <-. congruence.
      * injection E as <- <- E.
        assert (L' : low online g (Z.of_nat n)) by (intros s S; specialize (L s S); lia).
        destruct (IH _ _ _ _ L' G _ _ _ _ E K) as (A & B). split; [exact A|].
        intros t T. rewrite !new_leaders_cons, KI. specialize (B t T). lia.
    + destruct (place_replicas (Z.to_nat rf) online [] g) as [[q g1]|] eqn:P; [|discriminate].
      destruct (gen_partitions n (i + 1) online rf old g1) as [[m' g2]|] eqn:G; [|discriminate].
      injection H as <- <-.
      destruct (place_all (Z.to_nat rf) _ _ _ _ ltac:(lia) P) as (s & new & Q & _ & _ & INC & LT & MIN & GL & _).
      destruct m1 as [|[i1 q1] m1]; cbn [app] in E.
      * injection E as <- <- <-. rewrite Q. cbn [hd]. split.
        { apply INC. rewrite Q. now left. }
        { intros t T. specialize (MIN t T). unfold new_leaders. cbn. lia. }
      * injection E as <- <- E.
        assert (L' : low online g1 (Z.of_nat n)).
        { eapply place_low; [| |exact P]; [lia|]. intros x X. specialize (L x X). lia. }
        destruct (IH _ _ _ _ L' G _ _ _ _ E K) as (A & B). split; [exact A|].
        intros t T. rewrite !new_leaders_cons, KI. specialize (B t T).
        rewrite !GL in B. unfold bump in B. rewrite Q. cbn [hd]. cbn [zmem existsb orb] in B.
        assert (W : forall x, In x online -> wrap_u 16 (g_leaders g x + 1) = g_leaders g x + 1).
        { intros x X. specialize (L x X). apply wrap_u_id. unfold in_u. change (2 ^ 16) with 65536. lia. }
        rewrite (Z.eqb_sym s (hd 0 rs)), (Z.eqb_sym s t). rewrite !orb_false_r in B.
        rewrite (W _ A), (W _ T) in B.
        destruct (hd 0 rs =? s); destruct (t =? s); lia.
Qed.

Lemma gen_balance n online rf old : 0 < rf -> forall i g m g',
  low online g (Z.of_nat n) ->
  gen_partitions n i online rf old g = Some (m, g') ->
  (forall a b, In a online -> In b online -> g_leaders g a <= g_leaders g b + 1) ->
  forall a b, In a online -> In b online ->
    g_leaders g a + new_leaders old rf m a <= g_leaders g b + new_leaders old rf m b + 1.
Proof.
  intros R. induction n as [|n IH]; intros i g m g' L H BAL a b A B; cbn [gen_partitions] in H.
  - injection H as <- <-. unfold new_leaders. cbn. specialize (BAL a b A B). lia.
  - destruct (kept old rf i) as [q|] eqn:KI.
    + destruct (gen_partitions n (i + 1) online rf old g) as [[m' g1]|] eqn:G; [|discriminate].
      injection H as <- <-. rewrite !new_leaders_cons, KI.
      assert (L' : low online g (Z.of_nat n)) by (intros s S; specialize (L s S); lia).
      specialize (IH _ _ _ _ L' G BAL a b A B). lia.
    + destruct (place_replicas (Z.to_nat rf) online [] g) as [[q g1]|] eqn:P; [|discriminate].
      destruct (gen_partitions n (i + 1) online rf old g1) as [[m' g2]|] eqn:G; [|discriminate].
      injection H as <- <-.
      destruct (place_all (Z.to_nat rf) _ _ _ _ ltac:(lia) P) as (s & new & Q & _ & _ & INC & LT & MIN & GL & _).
      assert (L' : low online g1 (Z.of_nat n)).
      { eapply place_low; [| |exact P]; [lia|]. intros x X. specialize (L x X). lia. }
      assert (W : forall x, In x online -> g_leaders g1 x = g_leaders g x + (if s =? x then 1 else 0)).
      { intros x X. rewrite GL. unfold bump. cbn [zmem existsb]. rewrite orb_false_r, (Z.eqb_sym s x).
        destruct (x =? s); [|lia]. specialize (L x X). apply wrap_u_id. unfold in_u.
        change (2 ^ 16) with 65536. lia. }
      assert (BAL' : forall a b, In a online -> In b online -> g_leaders g1 a <= g_leaders g1 b + 1).
      { intros x y X Y. rewrite (W x X), (W y Y).
        pose proof (BAL x y X Y). pose proof (MIN y Y).
        destruct (Z.eqb_spec s x) as [<-|D]; destruct (s =? y); lia. }
      specialize (IH _ _ _ _ L' G BAL' a b A B).
      rewrite (W a A), (W b B) in IH.
      rewrite !new_leaders_cons, KI, Q. cbn [hd]. lia.
Qed.
