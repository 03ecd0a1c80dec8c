From Verif Require Import ReplicationModel ReplicationSpec StorageSpec RecordSpec RecordProofs StorageProofs ReplicaProofs StorageClaims WireProofs ListFacts.
From Coq Require Import Sorting.Permutation.

(** * The committed offset *)
Lemma reached_cons x l t : reached_by (x :: l) t = ((if (t <=? x)%Z then 1 else 0) + reached_by l t)%nat.
Proof. unfold reached_by. cbn [filter]. destruct (t <=? x); reflexivity. Qed.
Lemma reached_app a b t : reached_by (a ++ b) t = (reached_by a t + reached_by b t)%nat.
Proof. unfold reached_by. rewrite filter_app, app_length. reflexivity. Qed.
Lemma reached_le l t : (reached_by l t <= length l)%nat.
Proof. induction l as [|x l IH]; [auto|]. rewrite reached_cons. cbn [length]. destruct (t <=? x); lia. Qed.
Lemma reached_all l t : (forall x, In x l -> t <= x) -> reached_by l t = length l.
Proof.
  induction l as [|x l IH]; intros H; [reflexivity|]. rewrite reached_cons, IH by (intros; apply H; right; assumption).
  pose proof (H x (or_introl eq_refl)). replace (t <=? x) with true by lia. reflexivity.
Qed.
Lemma reached_in l t x : In x l -> x < t -> (reached_by l t < length l)%nat.
Proof.
  induction l as [|y l IH]; [intros []|]. rewrite reached_cons. cbn [length]. intros [->|I] L.
  - replace (t <=? x) with false by lia. pose proof (reached_le l t). lia.
  - specialize (IH I L). destruct (t <=? y); lia.
Qed.
Lemma reached_full l t x : reached_by l t = length l -> In x l -> t <= x.
Proof. intros E I. destruct (Z.le_gt_cases t x) as [H|H]; [assumption|]. pose proof (reached_in l t x I H). lia. Qed.
Lemma reached_above hw leos t : hw < t -> reached_by (filter (fun leo => hw <? leo) leos) t = reached_by leos t.
Proof.
  intros L. induction leos as [|x l IH]; [reflexivity|]. cbn [filter]. rewrite reached_cons.
  destruct (hw <? x) eqn:C; [rewrite reached_cons, IH; reflexivity|]. replace (t <=? x) with false by lia. rewrite IH. reflexivity.
Qed.

Lemma fold_min_spec l : forall x, (forall y, In y (x :: l) -> fold_left Z.min l x <= y) /\ In (fold_left Z.min l x) (x :: l).
Proof.
  induction l as [|z l IH]; intros x; cbn [fold_left].
  - split; [intros y [<-|[]]; lia|left; reflexivity].
  - destruct (IH (Z.min x z)) as (A & B). split.
    + intros y H. assert (fold_left Z.min l (Z.min x z) <= Z.min x z) by (apply A; left; reflexivity).
      destruct H as [<-|[<-|H]]; [lia|lia|]. apply A. right. assumption.
    + destruct B as [B|B]; [|right; right; assumption]. destruct (Z.min_spec x z) as [[_ E]|[_ E]]; rewrite E in *; rewrite <- B; [left; reflexivity|right; left; reflexivity].
Qed.
Lemma fold_max_spec l : forall x, (forall y, In y (x :: l) -> y <= fold_left Z.max l x) /\ In (fold_left Z.max l x) (x :: l).
Proof.
  induction l as [|z l IH]; intros x; cbn [fold_left].
  - split; [intros y [<-|[]]; lia|left; reflexivity].
  - destruct (IH (Z.max x z)) as (A & B). split.
    + intros y H. assert (Z.max x z <= fold_left Z.max l (Z.max x z)) by (apply A; left; reflexivity).
      destruct H as [<-|[<-|H]]; [lia|lia|]. apply A. right. assumption.
    + destruct B as [B|B]; [|right; right; assumption]. destruct (Z.max_spec x z) as [[_ E]|[_ E]]; rewrite E in *; rewrite <- B; [right; left; reflexivity|left; reflexivity].
Qed.
Lemma heap_min_spec l m : heap_min l = Some m -> In m l /\ forall y, In y l -> m <= y.
Proof. destruct l as [|x t]; [discriminate|]. cbn. intros H; inversion H; subst. destruct (fold_min_spec t x). auto. Qed.
Lemma list_max_spec l m : list_max l = Some m -> In m l /\ forall y, In y l -> y <= m.
Proof. destruct l as [|x t]; [discriminate|]. cbn. intros H; inversion H; subst. destruct (fold_max_spec t x). auto. Qed.
Lemma heap_min_some l : l <> [] -> exists m, heap_min l = Some m.
Proof. destruct l; [congruence|]. cbn. eauto. Qed.
Lemma replace_one_length m v l : length (replace_one m v l) = length l.
Proof. induction l as [|x l IH]; [reflexivity|]. cbn. destruct (x =? m); cbn [length]; congruence. Qed.
Lemma replace_one_reached m v l t : In m l -> (reached_by (replace_one m v l) t + (if (t <=? m)%Z then 1 else 0) = reached_by l t + (if (t <=? v)%Z then 1 else 0))%nat.
Proof.
  induction l as [|x l IH]; [intros []|]. intros H. cbn [replace_one]. destruct (x =? m) eqn:C.
  - assert (x = m) by lia. subst. rewrite !reached_cons. lia.
  - destruct H as [->|H]; [lia|]. rewrite !reached_cons. specialize (IH H). lia.
Qed.

Lemma heap_fold n : (0 < n)%nat -> forall rest P heap, length heap = n -> (n <= length P)%nat ->
  (forall t, reached_by heap t = Nat.min n (reached_by P t)) ->
  let heap' := fold_left heap_offer rest heap in
  length heap' = n /\ forall t, reached_by heap' t = Nat.min n (reached_by (P ++ rest) t).
Proof.
  intros N. induction rest as [|x rest IH]; intros P heap LH LP H; cbn [fold_left].
  - rewrite app_nil_r. auto.
  - replace (P ++ x :: rest) with ((P ++ [x]) ++ rest) by (rewrite <- app_assoc; reflexivity).
    destruct (heap_min_some heap) as (m & HM); [destruct heap; [cbn in LH; lia|discriminate]|].
    pose proof (heap_min_spec _ _ HM) as (IM & MIN). assert (heap_offer heap x = if m <? x then replace_one m x heap else heap) as HO by (unfold heap_offer; rewrite HM; reflexivity).
    rewrite HO.
    apply IH; [destruct (m <? x); [rewrite replace_one_length|]; assumption|rewrite app_length; lia|].
    intros t. rewrite reached_app, reached_cons. change (reached_by [] t) with 0%nat. specialize (H t).
    assert (t <= m -> reached_by heap t = n) as ALL by (intros; rewrite <- LH; apply reached_all; intros y Hy; specialize (MIN y Hy); lia).
    assert (m < t -> (reached_by heap t < n)%nat) as SOME by (intros; rewrite <- LH; eapply reached_in; eassumption).
    destruct (m <? x) eqn:C.
    + pose proof (replace_one_reached m x heap t IM) as R. destruct (t <=? m) eqn:C1, (t <=? x) eqn:C2; try lia.
    + destruct (t <=? x) eqn:C2; [specialize (ALL ltac:(lia))|]; lia.
Qed.

Lemma compute_hw_spec hw min_replica leos : 1 <= min_replica <= 65536 ->
  let n := Nat.max 1 (Nat.min (Z.to_nat (min_replica - 1)) (length leos)) in
  match compute_hw hw min_replica leos with
  | Some h => hw < h /\ largest_reached leos n h
  | None => (reached_by leos (hw + 1) < n)%nat
  end.
Proof.
  intros M n. unfold compute_hw. rewrite wrap_u_id by (unfold in_u; change (2 ^ 16) with 65536; lia). 
  set (q := filter (fun leo => hw <? leo) leos).
  assert (forall t, hw < t -> reached_by q t = reached_by leos t) as Q by (intros; apply reached_above; assumption).
  assert (forall x, In x q -> hw < x) as QL by (intros x H; apply filter_In in H; lia).
  assert (length q = reached_by leos (hw + 1)) as LQ.
  { rewrite <- Q by lia. symmetry. apply reached_all. intros x H. apply QL in H. lia. }
  destruct (Nat.min (Z.to_nat (min_replica - 1)) (length leos)) as [|k] eqn:NK; cbv zeta.
  - change n with 1%nat. destruct (list_max q) as [h|] eqn:LM.
    + apply list_max_spec in LM as (I & MX). split; [apply QL; assumption|]. split.
      * rewrite <- Q by (apply QL; assumption). apply in_split in I as (a & b & E). rewrite E, reached_app, reached_cons. rewrite Z.leb_refl. lia.
      * intros h' L. rewrite <- Q by (pose proof (QL h I); lia). 
        assert (reached_by q h' = 0%nat); [|lia]. clear - MX L. induction q as [|y q IH]; [reflexivity|].
        rewrite reached_cons. pose proof (MX y (or_introl eq_refl)). replace (h' <=? y) with false by lia. apply IH. intros; apply MX; right; assumption.
    + destruct q; [|discriminate]. rewrite <- LQ. cbn. lia.
  - assert (n = S k) as Hn by (unfold n; lia). clearbody n. subst n. destruct (length q <? S k)%nat eqn:C.
    + apply Nat.ltb_lt in C. lia.
    + apply Nat.ltb_ge in C.
      destruct (heap_fold (S k) ltac:(lia) (skipn (S k) q) (firstn (S k) q) (firstn (S k) q)) as (LEN & R).
      * rewrite firstn_length. lia.
      * rewrite firstn_length. lia.
      * intros t. pose proof (reached_le (firstn (S k) q) t) as X. rewrite firstn_length in X. lia.
      * rewrite firstn_skipn in R. set (heap := fold_left heap_offer _ _) in *. clearbody heap.
        destruct (heap_min_some heap) as (h & HM); [destruct heap; [discriminate|discriminate]|]. rewrite HM.
        apply heap_min_spec in HM as (I & MIN).
        assert (hw < h) as L.
        { destruct (Z.lt_ge_cases hw h) as [L|L]; [assumption|]. exfalso. pose proof (reached_in heap (hw + 1) h I ltac:(lia)) as X.
          rewrite R, Q in X by lia. lia. }
        split; [assumption|]. split.
        { rewrite <- Q by assumption. specialize (R h). rewrite (reached_all heap h) in R by assumption. lia. }
        { intros h' L'. rewrite <- Q by lia. pose proof (reached_in heap h' h I ltac:(lia)) as X. rewrite R in X. lia. }
Qed.
