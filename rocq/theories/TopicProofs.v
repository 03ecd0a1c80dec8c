(** Proofs about election, manual assignments and topics. *)
From Coq Require Import Permutation.
From Verif Require Import Base ListFacts.
From Verif Require Import ControlModel ControlSpec ControlProofs.

(** ** Election *)

Lemma score_spec leader r : -1 <= r_leo leader < 2 ^ 62 -> -1 <= r_leo r < 2 ^ 62 ->
  leader_score r leader = if lag leader r <? 4 then Some (lag leader r mod 65536) else None.
Proof.
  intros A B. unfold leader_score, lag. cbv zeta. rewrite wrap_s_id; [reflexivity | lia |].
  unfold in_s. change (2 ^ (64 - 1)) with 9223372036854775808.
  change (2 ^ 62) with 4611686018427387904 in *. lia.
Qed.

Definition cand_inv (online : Z -> bool) (leader : rstatus) (seen : list rstatus) (acc : option (Z * Z)) : Prop :=
  let elig r := In r seen /\ online (r_spu r) = true /\ lag leader r < 4 in
  match acc with
  | None => forall r, ~ elig r
  | Some (c, best) =>
    (exists r, elig r /\ r_spu r = c /\ best = lag leader r mod 65536) /\
    forall r, elig r -> best <= lag leader r mod 65536
  end.

Lemma cand_fold online leader l : -1 <= r_leo leader < 2 ^ 62 -> forall seen acc,
  Forall (fun r => -1 <= r_leo r < 2 ^ 62) l ->
  cand_inv online leader seen acc ->
  cand_inv online leader (seen ++ l) (fold_left (candidate_step online leader) l acc).
Proof.
  intros SL. induction l as [|r t IH]; intros seen acc F H; cbn [fold_left].
  - now rewrite app_nil_r.
  - replace (seen ++ r :: t) with ((seen ++ [r]) ++ t) by (rewrite <- app_assoc; reflexivity).
    pose proof (Forall_inv F) as SR. cbv beta in SR. apply Forall_inv_tail in F.
    apply IH; [exact F|]. clear IH F t. unfold candidate_step. rewrite (score_spec leader r SL SR).
    destruct (online (r_spu r)) eqn:O.
    + destruct (lag leader r <? 4) eqn:G.
      * apply Z.ltb_lt in G. destruct acc as [[c best]|]; cbv [cand_inv] in *.
        { destruct H as ((r0 & (I0 & O0 & G0) & E0 & B0) & MIN).
          destruct (lag leader r mod 65536 <? best) eqn:LT.
          - apply Z.ltb_lt in LT. split.
            + exists r. repeat split; auto. apply in_or_app. right. now left.
            + intros q (IQ & OQ & GQ). apply in_app_or in IQ. destruct IQ as [IQ|[<-|[]]]; [|lia].
              specialize (MIN q (conj IQ (conj OQ GQ))). lia.
          - apply Z.ltb_ge in LT. split.
            + exists r0. repeat split; auto. apply in_or_app. now left.
            + intros q (IQ & OQ & GQ). apply in_app_or in IQ. destruct IQ as [IQ|[<-|[]]]; auto. }
        { split.
          - exists r. repeat split; auto. apply in_or_app. right. now left.
          - intros q (IQ & OQ & GQ). apply in_app_or in IQ. destruct IQ as [IQ|[<-|[]]]; [|lia].
            exfalso. exact (H q (conj IQ (conj OQ GQ))). }
      * apply Z.ltb_ge in G. destruct acc as [[c best]|]; cbv [cand_inv] in *.
        { destruct H as ((r0 & (I0 & O0 & G0) & E0 & B0) & MIN). split.
          - exists r0. repeat split; auto. apply in_or_app. now left.
          - intros q (IQ & OQ & GQ). apply in_app_or in IQ. destruct IQ as [IQ|[<-|[]]]; auto. lia. }
        { intros q (IQ & OQ & GQ). apply in_app_or in IQ. destruct IQ as [IQ|[<-|[]]]; [|lia].
          exact (H q (conj IQ (conj OQ GQ))). }
    + destruct acc as [[c best]|]; cbv [cand_inv] in *.
      { destruct H as ((r0 & (I0 & O0 & G0) & E0 & B0) & MIN). split.
        - exists r0. repeat split; auto. apply in_or_app. now left.
        - intros q (IQ & OQ & GQ). apply in_app_or in IQ. destruct IQ as [IQ|[<-|[]]]; auto. congruence. }
      { intros q (IQ & OQ & GQ). apply in_app_or in IQ. destruct IQ as [IQ|[<-|[]]]; [|congruence].
        exact (H q (conj IQ (conj OQ GQ))). }
Qed.

Lemma candidate_inv online s : sane s ->
  match candidate_leader online s with
  | None => forall r, ~ eligible online s r
  | Some c => exists r, eligible online s r /\ r_spu r = c /\
      forall r', eligible online s r' -> lag (st_leader s) r mod 65536 <= lag (st_leader s) r' mod 65536
  end.
Proof.
  intros (SL & SR). unfold candidate_leader.
  pose proof (cand_fold online (st_leader s) (st_replicas s) SL [] None SR) as H.
  assert (I0 : cand_inv online (st_leader s) [] None) by (intros r ([] & _)).
  specialize (H I0). cbn [app] in H.
  destruct (fold_left (candidate_step online (st_leader s)) (st_replicas s) None) as [[c best]|];
    cbv [cand_inv] in H; cbn [option_map fst].
  - destruct H as ((r & E & S & B) & MIN). exists r. split; [exact E|]. split; [exact S|].
    intros r' E'. rewrite <- B. apply MIN, E'.
  - exact H.
Qed.

(** *** merging reports *)
Lemma rs_merge_spu x s : r_spu x = r_spu s -> r_spu (fst (rs_merge x s)) = r_spu x.
Proof.
  intros E. unfold rs_merge. destruct (r_spu s =? -1); [reflexivity|].
  rewrite E, Z.eqb_refl, orb_true_r. cbn. congruence.
Qed.

Lemma merge_follower_ids l s :
  map r_spu (merge_follower l s) = if zmem (r_spu s) (map r_spu l) then map r_spu l else map r_spu l ++ [r_spu s].
Proof.
  induction l as [|x t IH]; cbn [merge_follower map zmem existsb app]; [reflexivity|].
  rewrite (Z.eqb_sym (r_spu s)). destruct (Z.eqb_spec (r_spu x) (r_spu s)) as [E|D]; cbn [orb map].
  - now rewrite rs_merge_spu.
  - rewrite IH. unfold zmem. destruct (existsb (Z.eqb (r_spu s)) (map r_spu t)); reflexivity.
Qed.

Lemma nodup_snoc (l : list Z) x : NoDup l -> ~ In x l -> NoDup (l ++ [x]).
Proof.
  intros N I. apply (Permutation_NoDup (l := x :: l)).
  - apply Permutation_cons_append.
  - now constructor.
Qed.
Lemma merge_follower_nodup l s : NoDup (map r_spu l) -> NoDup (map r_spu (merge_follower l s)).
Proof.
  intros N. rewrite merge_follower_ids. destruct (zmem (r_spu s) (map r_spu l)) eqn:M; [exact N|].
  apply zmem_false in M. now apply nodup_snoc.
Qed.
Lemma merge_fold_nodup rs : forall l, NoDup (map r_spu l) -> NoDup (map r_spu (fold_left merge_follower rs l)).
Proof. induction rs as [|s t IH]; intros l N; cbn [fold_left]; auto using merge_follower_nodup. Qed.

Lemma filter_nodup_map {A} (f : A -> Z) (p : A -> bool) l : NoDup (map f l) -> NoDup (map f (filter p l)).
Proof.
  induction l as [|x t IH]; cbn [filter map]; intros N; [constructor|].
  inversion N as [|? ? H1 H2]; subst. destruct (p x); cbn [map]; auto.
  constructor; auto. intros I. apply H1. apply in_map_iff in I. destruct I as (y & E & Y).
  apply filter_In in Y. rewrite <- E. apply in_map. tauto.
Qed.

Lemma rs_merge_old self src old : snd (rs_merge self src) = Some old -> old = self /\ fst (rs_merge self src) = src.
Proof.
  unfold rs_merge. destruct (r_spu src =? -1); cbn; [discriminate|].
  destruct ((r_spu self =? -1) || (r_spu self =? r_spu src)); cbn; [discriminate|].
  intros H. injection H as <-. auto.
Qed.

Lemma ps_merge_unique self other : unique_servers self -> unique_servers (ps_merge self other).
Proof.
  intros U. unfold unique_servers in *. inversion U as [|? ? N ND]; subst. unfold ps_merge.
  destruct (rs_merge (st_leader self) (st_leader other)) as [leader old] eqn:M. cbn [st_leader st_replicas].
  constructor.
  - intros I. apply in_map_iff in I. destruct I as (x & E & X). apply filter_In in X. destruct X as (_ & X).
    rewrite E, Z.eqb_refl in X. discriminate.
  - apply filter_nodup_map, merge_fold_nodup. destruct old as [o|]; [|exact ND].
    destruct (rs_merge_old (st_leader self) (st_leader other) o) as (-> & _); [now rewrite M|].
    rewrite map_app. cbn [map]. now apply nodup_snoc.
Qed.

(** after the followers of a complete report are merged, every listed one is at or above [hw] *)
Lemma merge_follower_in l s x : In x (merge_follower l s) ->
  (In x l /\ (r_spu x <> r_spu s \/ ~ NoDup (map r_spu l))) \/
  x = s \/ exists y, In y l /\ r_spu y = r_spu s /\ x = fst (rs_merge y s).
Proof.
  induction l as [|y t IH]; cbn [merge_follower].
  - intros [<-|[]]. auto.
  - destruct (Z.eqb_spec (r_spu y) (r_spu s)) as [E|D].
    + intros [<-|X].
      * right. right. exists y. cbn. auto.
      * destruct (Z.eq_dec (r_spu x) (r_spu s)) as [E2|D2].
        { left. split; [now right|]. right. cbn [map]. intros N. inversion N; subst.
          apply H1. rewrite E, <- E2. now apply in_map. }
        { left. split; [now right|]. now left. }
    + intros [<-|X].
      * left. split; [now left|]. now left.
      * destruct (IH X) as [(A & B)|[A|(z & A & B & C)]].
        { left. split; [now right|]. destruct B as [B|B]; [now left|]. right. cbn [map].
          intros N. inversion N; subst. contradiction. }
        { auto. }
        { right. right. exists z. cbn. auto. }
Qed.

Lemma merge_fold_in rs : forall l, NoDup (map r_spu l) ->
  forall x, In x (fold_left merge_follower rs l) ->
  (In x l /\ ~ In (r_spu x) (map r_spu rs)) \/
  (exists s, In s rs /\ r_spu x = r_spu s /\ (r_spu s <> -1 -> r_leo s <> -1 -> r_leo x = r_leo s)).
Proof.
  induction rs as [|s t IH]; intros l N x X; cbn [fold_left] in X.
  - left. split; [exact X|]. intros [].
  - destruct (IH _ (merge_follower_nodup l s N) x X) as [(A & B)|(s' & A & B & C)].
    + destruct (merge_follower_in l s x A) as [(P & Q)|[->|(y & Y & E & ->)]].
      * left. split; [exact P|]. destruct Q as [Q|Q]; [|contradiction].
        cbn [map]. intros [R|R]; [congruence | contradiction].
      * right. exists s. cbn. auto.
      * right. exists s. split; [now left|]. split; [rewrite rs_merge_spu; congruence|].
        intros S1 S2. unfold rs_merge. apply Z.eqb_neq in S1, S2. rewrite S1, E, Z.eqb_refl, orb_true_r.
        cbn. now rewrite S2.
    + right. exists s'. cbn. auto.
Qed.

Lemma ps_merge_consistent self other :
  unique_servers self -> complete_report (servers self) other -> consistent (ps_merge self other).
Proof.
  intros U (L1 & L2 & ND & F & INC). unfold consistent, ps_merge.
  destruct (rs_merge (st_leader self) (st_leader other)) as [leader old] eqn:M. cbn [st_leader st_replicas].
  assert (LS : r_spu leader = r_spu (st_leader other) /\ r_hw leader = r_hw (st_leader other)).
  { unfold rs_merge in M. apply Z.eqb_neq in L1, L2. rewrite L1 in M.
    destruct ((r_spu (st_leader self) =? -1) || (r_spu (st_leader self) =? r_spu (st_leader other)));
      injection M as <- <-; cbn; [rewrite L2|]; auto. }
  destruct LS as (LS & LH). unfold unique_servers in U. inversion U as [|? ? N ND0]; subst.
  set (rs0 := match old with Some o => st_replicas self ++ [o] | None => st_replicas self end).
  assert (R0 : NoDup (map r_spu rs0) /\ forall x, In x rs0 -> In (r_spu x) (servers self)).
  { unfold rs0, servers. destruct old as [o|].
    - destruct (rs_merge_old (st_leader self) (st_leader other) o) as (-> & _); [now rewrite M|].
      split; [rewrite map_app; cbn [map]; now apply nodup_snoc|].
      intros x X. apply in_app_or in X. destruct X as [X|[<-|[]]]; [right; now apply in_map | now left].
    - split; [exact ND0|]. intros x X. right. now apply in_map. }
  destruct R0 as (NR & IR). apply Forall_forall. intros x X. apply filter_In in X. destruct X as (X & NL).
  rewrite LH. rewrite LS in NL.
  destruct (merge_fold_in (st_replicas other) rs0 NR x X) as [(A & B)|(s & A & B & C)].
  - exfalso. specialize (INC _ (IR x A)). destruct INC as [E|E].
    + rewrite <- E, Z.eqb_refl in NL. discriminate.
    + contradiction.
  - rewrite Forall_forall in F. destruct (F s A) as (F1 & F2 & F3). rewrite (C F1 F2). exact F3.
Qed.

(** ** Manual assignments *)
Fixpoint ascending (l : list Z) : Prop :=
  match l with [] => True | x :: t => Forall (fun y => x <= y) t /\ ascending t end.

Lemma insert_ascending x l : ascending l -> ascending (insert_sorted x l).
Proof.
  induction l as [|y t IH]; cbn [insert_sorted ascending]; intros H.
  - split; constructor.
  - destruct H as (A & B). destruct (x <=? y) eqn:E.
    + apply Z.leb_le in E. cbn [ascending]. repeat split; auto.
      constructor; [exact E|]. eapply Forall_impl; [|exact A]. cbn. intros; lia.
    + apply Z.leb_gt in E. cbn [ascending]. split; [|auto].
      apply Forall_forall. intros z Z. apply (Permutation_in z (insert_sorted_perm x t)) in Z.
      destruct Z as [<-|Z]; [lia|]. rewrite Forall_forall in A. auto.
Qed.
Lemma sort_ascending l : ascending (sort l).
Proof. induction l; cbn; [exact I | now apply insert_ascending]. Qed.

Lemma adjacent_bound l : 0 <= adjacent_unequal l /\ (l <> [] -> adjacent_unequal l <= zlen l - 1).
Proof.
  induction l as [|x t IH]; cbn [adjacent_unequal]; [split; [lia | congruence]|].
  destruct t as [|y t]; [split; [lia|]; intros _; unfold zlen; cbn; lia|].
  destruct IH as (A & B). specialize (B ltac:(discriminate)).
  rewrite zlen_cons. destruct (x =? y); split; intros; lia.
Qed.

Lemma adjacent_nodup l : ascending l -> l <> [] -> (zlen l = 1 + adjacent_unequal l <-> NoDup l).
Proof.
  induction l as [|x t IH]; [congruence|]. intros (A & B) _. destruct t as [|y t].
  - cbn. split; intros _; [repeat constructor; intros [] | reflexivity].
  - specialize (IH B ltac:(discriminate)).
    change (adjacent_unequal (x :: y :: t)) with ((if x =? y then 0 else 1) + adjacent_unequal (y :: t)).
    rewrite zlen_cons. pose proof (adjacent_bound (y :: t)) as (P & Q). specialize (Q ltac:(discriminate)).
    destruct (Z.eqb_spec x y) as [->|D].
    + split; [lia|]. intros N. inversion N; subst. exfalso. apply H1. now left.
    + split.
      * intros E. constructor; [|apply IH; lia]. destruct B as (B & _).
        pose proof (Forall_inv A) as XY. cbv beta in XY. intros [I|I]; [congruence|].
        rewrite Forall_forall in B. specialize (B x I). lia.
      * intros N. inversion N; subst. apply IH in H2. lia.
Qed.

Lemma unique_check rs : rs <> [] -> (zlen rs = 1 + adjacent_unequal (sort rs) <-> NoDup rs).
Proof.
  intros NE. assert (NS : sort rs <> []).
  { intros E. apply NE. apply Permutation_nil. rewrite <- E. apply sort_perm. }
  pose proof (adjacent_nodup (sort rs) (sort_ascending rs) NS) as H.
  assert (L : zlen (sort rs) = zlen rs) by (unfold zlen; now rewrite sort_length). rewrite L in H. rewrite H.
  split; apply Permutation_NoDup; [|symmetry]; apply sort_perm.
Qed.

Definition entry_ok (e : pmap) : Prop := NoDup (snd e) /\ Forall (fun s => 0 <= s) (snd e).

Lemma neg_existsb rs : existsb (fun s => s <? 0) rs = false <-> Forall (fun s => 0 <= s) rs.
Proof.
  induction rs as [|x t IH]; cbn [existsb]; [split; [constructor | reflexivity]|].
  rewrite orb_false_iff, IH. split.
  - intros (A & B). constructor; auto. apply Z.ltb_ge in A. lia.
  - intros F. inversion F; subst. split; auto. apply Z.ltb_ge. lia.
Qed.

Lemma validate_loop_spec l : forall id len, 0 < id -> 0 < len -> id + zlen l < 2 ^ 32 ->
  (validate_loop l id len = true <->
   map fst l = range id (length l) /\ Forall (fun e => zlen (snd e) = len) l /\ Forall entry_ok l).
Proof.
  induction l as [|[pid rs] t IH]; intros id len I L B.
  - cbn. split; auto.
  - cbn [validate_loop length map fst]. rewrite range_S. rewrite zlen_cons in B.
    pose proof (zlen_nonneg t) as NT.
    destruct (Z.eqb_spec pid id) as [->|D]; cbn [negb].
    2: { split; [discriminate|]. intros (X & _). injection X; intros; congruence. }
    replace (id =? 0) with false by (symmetry; apply Z.eqb_neq; lia). cbn [andb negb].
    destruct (Z.eqb_spec (zlen rs) len) as [E|D]; cbn [negb].
    2: { split; [discriminate|]. intros (_ & X & _). inversion X; subst. contradiction. }
    assert (NE : rs <> []) by (intros ->; unfold zlen in E; cbn in E; lia).
    destruct (Z.eqb_spec (zlen rs) (1 + adjacent_unequal (sort rs))) as [U|U]; cbn [negb].
    2: { split; [discriminate|]. intros (_ & _ & X). inversion X as [|? ? (X1 & X2) X3]; subst. cbn [snd] in *.
         apply (unique_check rs NE) in X1. contradiction. }
    apply (unique_check rs NE) in U.
    destruct (existsb (fun s => s <? 0) rs) eqn:NEG.
    { split; [discriminate|]. intros (_ & _ & X). inversion X as [|? ? (X1 & X2) X3]; subst. cbn [snd] in *.
      apply neg_existsb in X2. congruence. }
    apply neg_existsb in NEG.
    rewrite wrap_u_id by (unfold in_u; lia).
    rewrite (IH (id + 1) len) by lia. split.
    + intros (X & Y & Z). rewrite X. repeat split; constructor; auto. split; auto.
    + intros (X & Y & Z). injection X as X. inversion Y; inversion Z; subst. auto.
Qed.

Lemma validate_spec l : zlen l < 2 ^ 32 -> (validate_maps l = true <-> assignment_ok l).
Proof.
  intros B. unfold assignment_ok. destruct l as [|[pid rs] t].
  - cbn. split; [discriminate | intros (X & _); congruence].
  - cbn [validate_maps validate_loop]. rewrite zlen_cons in B. pose proof (zlen_nonneg t) as NT.
    assert (IDX : indices (@zlen pmap ((pid, rs) :: t)) = 0 :: range 1 (length t)).
    { rewrite <- range_0. unfold zlen. rewrite Nat2Z.id. cbn [length]. now rewrite range_S. }
    match goal with |- context [indices ?x] => change (indices x) with (indices (@zlen pmap ((pid, rs) :: t))) end.
    rewrite IDX. cbn [map fst].
    destruct (Z.eqb_spec pid 0) as [->|D]; cbn [negb].
    2: { split; [discriminate|]. intros (_ & X & _). injection X; intros; congruence. }
    cbn [andb negb Z.eqb].
    destruct (Z.eqb_spec (zlen rs) 0) as [E|NE]; cbn [andb].
    { split; [discriminate|]. intros (_ & _ & (k & K & X) & _). apply Forall_inv in X. cbn in X. lia. }
    assert (NE' : rs <> []) by (intros ->; apply NE; reflexivity).
    destruct (Z.eqb_spec (zlen rs) (1 + adjacent_unequal (sort rs))) as [U|U]; cbn [negb].
    2: { split; [discriminate|]. intros (_ & _ & _ & X). inversion X as [|? ? (X1 & X2) X3]; subst. cbn [snd] in *.
         apply (unique_check rs NE') in X1. contradiction. }
    apply (unique_check rs NE') in U.
    destruct (existsb (fun s => s <? 0) rs) eqn:NEG.
    { split; [discriminate|]. intros (_ & _ & _ & X). inversion X as [|? ? (X1 & X2) X3]; subst. cbn [snd] in *.
      apply neg_existsb in X2. congruence. }
    apply neg_existsb in NEG. change (wrap_u 32 (0 + 1)) with 1. pose proof (zlen_nonneg rs).
    rewrite (validate_loop_spec t 1 (zlen rs)) by lia. split.
    + intros (X & Y & Z). split; [discriminate|]. split; [now rewrite X|]. split.
      * exists (zlen rs). split; [lia|]. constructor; auto.
      * constructor; auto.
    + intros (_ & X & (k & K & Y) & Z). injection X as X. inversion Y; inversion Z; subst. cbn [snd] in *. auto.
Qed.
