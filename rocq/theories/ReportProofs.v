From Verif Require Import Base ControlModel ReportModel ReportSpec.
From Coq Require Import Lia.

(** ** Lists with keys *)

Definition last_of {A} (k : Z) (l : list (Z * A)) : option A := look k (rev l).

Lemma look_app : forall A k (l1 l2 : list (Z * A)),
  look k (l1 ++ l2) = match look k l1 with Some x => Some x | None => look k l2 end.
Proof.
  intros A k l1 l2. unfold look. induction l1 as [|[x y] l IH]; [reflexivity|]. cbn.
  destruct (x =? k); [reflexivity|exact IH].
Qed.
Lemma look_in : forall A k (l : list (Z * A)) x, look k l = Some x -> In (k, x) l.
Proof.
  intros A k l x H. unfold look in H. destruct (find _ l) as [[a b]|] eqn:E; [|discriminate]. cbn in H. injection H as ->.
  apply find_some in E as [HI E]. cbn in E. apply Z.eqb_eq in E. subst. exact HI.
Qed.
Lemma look_none : forall A k (l : list (Z * A)), look k l = None <-> ~ In k (keys l).
Proof.
  intros A k l. unfold look. induction l as [|[a b] l IH]; cbn; [split; auto|].
  destruct (Z.eqb_spec a k) as [->|N]; cbn.
  - split; [discriminate|]. intros H. exfalso. apply H. left. reflexivity.
  - rewrite IH. split; [intros H [G|G]; contradiction|intros H G; apply H; right; exact G].
Qed.
Lemma look_some : forall A k (l : list (Z * A)), In k (keys l) -> exists x, look k l = Some x.
Proof.
  intros A k l H. destruct (look k l) as [x|] eqn:E; [eauto|]. apply look_none in E. contradiction.
Qed.
Lemma in_keys : forall A k (x : A) l, In (k, x) l -> In k (keys l).
Proof. intros A k x l H. apply (in_map fst) in H. exact H. Qed.
Lemma keys_in : forall A k (l : list (Z * A)), In k (keys l) -> exists x, In (k, x) l.
Proof. intros A k l H. apply in_map_iff in H as ([a b] & E & HI). cbn in E. subst. eauto. Qed.
Lemma key_once : forall A (l : list (Z * A)) k x y, NoDup (keys l) -> In (k, x) l -> In (k, y) l -> x = y.
Proof.
  intros A l k x y. induction l as [|[a b] l IH]; cbn; intros ND HX HY; [contradiction|]. inversion ND as [|p q N D]; subst.
  destruct HX as [HX|HX], HY as [HY|HY].
  - congruence.
  - injection HX as -> ->. exfalso. apply N. eapply in_keys, HY.
  - injection HY as -> ->. exfalso. apply N. eapply in_keys, HX.
  - auto.
Qed.
Lemma look_once : forall A (l : list (Z * A)) k x, NoDup (keys l) -> In (k, x) l -> look k l = Some x.
Proof.
  intros A l k x ND HI. destruct (look k l) as [y|] eqn:E.
  - f_equal. eapply key_once; [exact ND|apply look_in, E|exact HI].
  - apply look_none in E. exfalso. apply E. eapply in_keys, HI.
Qed.

Lemma last_app : forall A k (l1 l2 : list (Z * A)),
  last_of k (l1 ++ l2) = match last_of k l2 with Some x => Some x | None => last_of k l1 end.
Proof. intros A k l1 l2. unfold last_of. rewrite rev_app_distr. apply look_app. Qed.
Lemma last_cons : forall A k x (a : A) l,
  last_of k ((x, a) :: l) = match last_of k l with Some y => Some y | None => if x =? k then Some a else None end.
Proof.
  intros A k x a l. change ((x, a) :: l) with ([(x, a)] ++ l). rewrite last_app.
  destruct (last_of k l); [reflexivity|]. unfold last_of, look. cbn. destruct (x =? k); reflexivity.
Qed.
Lemma last_in : forall A k (l : list (Z * A)) x, last_of k l = Some x -> In (k, x) l.
Proof. intros A k l x H. apply in_rev. eapply look_in, H. Qed.
Lemma last_none : forall A k (l : list (Z * A)), last_of k l = None <-> ~ In k (keys l).
Proof.
  intros A k l. unfold last_of. rewrite look_none. unfold keys. rewrite map_rev, <- in_rev. reflexivity.
Qed.

Lemma keys_app : forall A (l1 l2 : list (Z * A)), keys (l1 ++ l2) = keys l1 ++ keys l2.
Proof. intros. apply map_app. Qed.
Lemma set_in_keys : forall A k (a : A) l, keys (set_in k a l) = keys l.
Proof.
  intros A k a l. unfold keys, set_in. rewrite map_map. apply map_ext. intros [x y]. cbn.
  destruct (Z.eqb_spec x k); cbn; congruence.
Qed.
Lemma in_set_in : forall A k (a : A) l k' b, In (k', b) (set_in k a l) -> (k' = k /\ b = a) \/ (k' <> k /\ In (k', b) l).
Proof.
  intros A k a l k' b H. unfold set_in in H. apply in_map_iff in H as ([x y] & E & HI). cbn in E.
  destruct (Z.eqb_spec x k); [left; split; congruence|right]. injection E as <- <-. auto.
Qed.
Lemma set_in_other : forall A k (a : A) l k' b, In (k', b) l -> k' <> k -> In (k', b) (set_in k a l).
Proof.
  intros A k a l k' b H N. unfold set_in. apply in_map_iff. exists (k', b). split; [|exact H]. cbn.
  destruct (Z.eqb_spec k' k); [contradiction|reflexivity].
Qed.
Lemma set_in_same : forall A k (a : A) l, In k (keys l) -> In (k, a) (set_in k a l).
Proof.
  intros A k a l H. apply keys_in in H as (b & H). unfold set_in. apply in_map_iff. exists (k, b). split; [|exact H]. cbn.
  rewrite Z.eqb_refl. reflexivity.
Qed.
Lemma in_filter_key : forall A k (l : list (Z * A)) k' b,
  In (k', b) (filter (fun e => negb (fst e =? k)) l) <-> In (k', b) l /\ k' <> k.
Proof.
  intros A k l k' b. rewrite filter_In. cbn. rewrite negb_true_iff, Z.eqb_neq. reflexivity.
Qed.
Lemma keys_filter : forall A k (l : list (Z * A)) k',
  In k' (keys (filter (fun e => negb (fst e =? k)) l)) <-> In k' (keys l) /\ k' <> k.
Proof.
  intros A k l k'. split.
  - intros H. apply keys_in in H as (b & H). apply in_filter_key in H as [H N]. split; [eapply in_keys, H|exact N].
  - intros [H N]. apply keys_in in H as (b & H). eapply in_keys. apply in_filter_key. split; [exact H|exact N].
Qed.
Lemma nodup_filter_key : forall A (f : Z * A -> bool) l, NoDup (keys l) -> NoDup (keys (filter f l)).
Proof.
  intros A f l. induction l as [|[a b] l IH]; cbn; intros H; [constructor|]. inversion H as [|x y N D]; subst.
  destruct (f (a, b)); cbn; [|auto]. constructor; [|auto]. intros G. apply N. apply keys_in in G as (c & G).
  apply filter_In in G as [G _]. eapply in_keys, G.
Qed.
Lemma nodup_snoc_key : forall A (l : list (Z * A)) k a, NoDup (keys l) -> ~ In k (keys l) -> NoDup (keys (l ++ [(k, a)])).
Proof.
  intros A l k a ND N. unfold keys. rewrite map_app. cbn. apply NoDup_Add with (a := k) (l := map fst l).
  - rewrite <- (app_nil_r (map fst l)) at 1. apply Add_app.
  - split; assumption.
Qed.
Lemma last_filter : forall A k (l : list (Z * A)) k', k' <> k -> last_of k' (filter (fun e => negb (fst e =? k)) l) = last_of k' l.
Proof.
  intros A k l k' N. induction l as [|[x a] l IH]; [reflexivity|]. cbn [filter fst].
  destruct (Z.eqb_spec x k) as [->|NE]; cbn [negb]; rewrite !last_cons, IH; [|reflexivity].
  destruct (last_of k' l); [reflexivity|]. destruct (Z.eqb_spec k k'); [congruence|reflexivity].
Qed.

(** ** Merging *)

Definition report_of (i : lead_info) : lrs :=
  {| lr_leader := {| r_spu := li_me i; r_hw := li_hw i; r_leo := li_leo i |};
     lr_replicas := li_followers i; lr_size := li_size i; lr_base := li_base i |}.

Definition spus (l : list rstatus) : list Z := map r_spu l.
Definition tidy (sh : shown) : Prop :=
  NoDup (spus (st_replicas (sh_part sh))) /\ ~ In (r_spu (st_leader (sh_part sh))) (spus (st_replicas (sh_part sh))).

Lemma merge_follower_spus : forall l s, r_spu s <> -1 ->
  spus (merge_follower l s) = if existsb (fun x => x =? r_spu s) (spus l) then spus l else spus l ++ [r_spu s].
Proof.
  intros l s N. induction l as [|x l IH]; [reflexivity|]. cbn. destruct (Z.eqb_spec (r_spu x) (r_spu s)) as [E|NE].
  - cbn. unfold rs_merge. destruct (Z.eqb_spec (r_spu s) (-1)); [contradiction|].
    rewrite (proj2 (Z.eqb_eq _ _) E), orb_true_r. cbn. rewrite E. reflexivity.
  - cbn. unfold spus in IH. rewrite IH. destruct (existsb (fun x0 => x0 =? r_spu s) (map r_spu l)) eqn:EX; reflexivity.
Qed.
Lemma nodup_snoc_Z : forall (l : list Z) k, NoDup l -> ~ In k l -> NoDup (l ++ [k]).
Proof.
  intros l k ND N. apply NoDup_Add with (a := k) (l := l); [|split; assumption].
  rewrite <- (app_nil_r l) at 1. apply Add_app.
Qed.
Lemma merge_follower_nodup : forall l s, r_spu s <> -1 -> NoDup (spus l) -> NoDup (spus (merge_follower l s)).
Proof.
  intros l s N ND. rewrite merge_follower_spus by exact N. destruct (existsb _ (spus l)) eqn:E; [exact ND|].
  apply nodup_snoc_Z; [exact ND|]. intros H. apply Bool.not_true_iff_false in E. apply E. apply existsb_exists.
  exists (r_spu s). split; [exact H|apply Z.eqb_refl].
Qed.
Lemma merge_follower_new : forall l s, r_spu s <> -1 -> r_hw s <> -1 -> r_leo s <> -1 -> In s (merge_follower l s).
Proof.
  intros l s N N1 N2. induction l as [|x l IH]; cbn; [left; reflexivity|].
  destruct (Z.eqb_spec (r_spu x) (r_spu s)) as [E|NE]; [|right; exact IH]. left. unfold rs_merge.
  destruct (Z.eqb_spec (r_spu s) (-1)); [contradiction|]. rewrite (proj2 (Z.eqb_eq _ _) E), orb_true_r. cbn.
  destruct (Z.eqb_spec (r_hw s) (-1)); [contradiction|]. destruct (Z.eqb_spec (r_leo s) (-1)); [contradiction|].
  destruct s; reflexivity.
Qed.
Lemma merge_follower_old : forall l s r, In r l -> r_spu r <> r_spu s -> In r (merge_follower l s).
Proof.
  intros l s r. induction l as [|x l IH]; cbn; intros H N; [contradiction|].
  destruct (Z.eqb_spec (r_spu x) (r_spu s)) as [E|NE].
  - destruct H as [->|H]; [contradiction|]. right. exact H.
  - destruct H as [->|H]; [left; reflexivity|right; auto].
Qed.
Lemma merge_followers : forall fs l, NoDup (spus fs) -> Forall (fun f => r_spu f <> -1) fs -> NoDup (spus l) ->
  NoDup (spus (fold_left merge_follower fs l)) /\
  (forall f, In f fs -> r_hw f <> -1 -> r_leo f <> -1 -> In f (fold_left merge_follower fs l)) /\
  (forall r, In r l -> ~ In (r_spu r) (spus fs) -> In r (fold_left merge_follower fs l)).
Proof.
  induction fs as [|f fs IH]; intros l ND FN NL; cbn; [repeat split; auto; contradiction|].
  inversion ND as [|x y N D]; subst. inversion FN as [|x y F1 F2]; subst.
  destruct (IH (merge_follower l f) D F2 (merge_follower_nodup _ _ F1 NL)) as (A & B & C). split; [exact A|]. split.
  - intros g [<-|HG] H1 H2; [|auto]. apply C; [apply merge_follower_new; assumption|exact N].
  - intros r HR NR. apply C; [|tauto]. apply merge_follower_old; [exact HR|]. intros E. apply NR. left. symmetry. exact E.
Qed.
Lemma spus_filter : forall f l, NoDup (spus l) -> NoDup (spus (filter f l)).
Proof.
  intros f l. induction l as [|x l IH]; cbn; intros H; [constructor|]. inversion H as [|a b N D]; subst.
  destruct (f x); cbn; [|auto]. constructor; [|auto]. intros G. apply N. apply in_map_iff in G as (y & E & G).
  apply filter_In in G as [G _]. rewrite <- E. apply in_map, G.
Qed.
Lemma spu_once : forall l (x y : rstatus), NoDup (spus l) -> In x l -> In y l -> r_spu x = r_spu y -> x = y.
Proof.
  induction l as [|a l IH]; cbn; intros x y ND HX HY E; [contradiction|]. inversion ND as [|p q N D]; subst.
  destruct HX as [<-|HX], HY as [<-|HY]; auto; exfalso; apply N; [rewrite E|rewrite <- E]; apply in_map; assumption.
Qed.

Lemma merge_reflects : forall sh i, sound i -> tidy sh ->
  tidy (merge_shown sh (as_status_of (report_of i))) /\ reflects (merge_shown sh (as_status_of (report_of i))) i.
Proof.
  intros sh i (S1 & S2 & S3 & S4 & S5) [T1 T2]. unfold merge_shown, as_status_of, report_of. cbn.
  set (me := {| r_spu := li_me i; r_hw := li_hw i; r_leo := li_leo i |}).
  assert (EL : exists o, rs_merge (st_leader (sh_part sh)) me = (me, o) /\
    NoDup (spus (match o with Some x => st_replicas (sh_part sh) ++ [x] | None => st_replicas (sh_part sh) end))).
  { unfold rs_merge. subst me. cbn. destruct (Z.eqb_spec (li_me i) (-1)); [lia|].
    destruct ((r_spu (st_leader (sh_part sh)) =? -1) || (r_spu (st_leader (sh_part sh)) =? li_me i)).
    - exists None. split; [|exact T1]. destruct (Z.eqb_spec (li_hw i) (-1)); [lia|]. destruct (Z.eqb_spec (li_leo i) (-1)); [lia|]. reflexivity.
    - exists (Some (st_leader (sh_part sh))). split; [reflexivity|]. unfold spus. rewrite map_app. apply nodup_snoc_Z; assumption. }
  destruct EL as (o & EL & NO). unfold ps_merge. cbn. fold me. rewrite EL.
  set (rs0 := match o with Some x => st_replicas (sh_part sh) ++ [x] | None => st_replicas (sh_part sh) end) in *.
  assert (F1 : Forall (fun f => r_spu f <> -1) (li_followers i)) by (eapply Forall_impl; [|exact S5]; cbn; lia).
  destruct (merge_followers (li_followers i) rs0 S4 F1 NO) as (A & B & _).
  split.
  - split; cbn; [apply spus_filter, A|]. intros H. apply in_map_iff in H as (x & E & H). apply filter_In in H as [_ H].
    cbn in *. rewrite E, Z.eqb_refl in H. discriminate.
  - split; [reflexivity|]. split; [reflexivity|]. cbn. intros f HF H1 H2 r.
    assert (IN : In f (filter (fun s => negb (r_spu s =? li_me i)) (fold_left merge_follower (li_followers i) rs0))).
    { apply filter_In. split; [apply B; assumption|]. rewrite Forall_forall in S5. destruct (S5 _ HF) as [_ N].
      apply negb_true_iff, Z.eqb_neq, N. }
    split.
    + intros [HR E]. eapply spu_once; [apply spus_filter, A|exact HR|exact IN|exact E].
    + intros ->. auto.
Qed.
Lemma mark_tidy : forall sh r, tidy sh -> tidy {| sh_part := set_resolution (sh_part sh) r; sh_size := sh_size sh; sh_base := sh_base sh |}.
Proof. intros sh r H. exact H. Qed.
Lemma mark_reflects : forall sh r i, reflects sh i ->
  reflects {| sh_part := set_resolution (sh_part sh) r; sh_size := sh_size sh; sh_base := sh_base sh |} i.
Proof. intros sh r i H. exact H. Qed.

Lemma merge_all_some : forall store msg, (forall k, In k (keys msg) -> In k (keys store)) -> exists l, merge_all store msg = Some l.
Proof.
  intros store msg. induction msg as [|[k r] t IH]; intros H; cbn; [eauto|].
  destruct (look_some _ k store) as (sh & E); [apply H; left; reflexivity|]. rewrite E.
  destruct IH as (l & E2); [intros x HX; apply H; right; exact HX|]. rewrite E2. cbn. eauto.
Qed.
Lemma merge_all_last : forall store msg l k, merge_all store msg = Some l ->
  last_of k l = match last_of k msg with
                | Some r => option_map (fun sh => merge_shown sh (as_status_of r)) (look k store)
                | None => None
                end.
Proof.
  intros store msg. induction msg as [|[x r] t IH]; intros l k H; cbn in H; [injection H as <-; reflexivity|].
  destruct (look x store) as [sh|] eqn:E; [|discriminate]. destruct (merge_all store t) as [l'|] eqn:E2; [|discriminate].
  cbn in H. injection H as <-. rewrite !last_cons, (IH l' k eq_refl). destruct (last_of k t) as [r'|] eqn:EL.
  - destruct (look k store) as [sh'|] eqn:E3; [reflexivity|]. destruct (Z.eqb_spec x k) as [->|]; [congruence|]. reflexivity.
  - destruct (Z.eqb_spec x k) as [->|]; [rewrite E|]; reflexivity.
Qed.
Lemma merge_all_in : forall store msg l k sh', merge_all store msg = Some l -> In (k, sh') l ->
  exists sh r, In (k, sh) store /\ In (k, r) msg /\ sh' = merge_shown sh (as_status_of r).
Proof.
  intros store msg. induction msg as [|[x r] t IH]; intros l k sh' H HI; cbn in H; [injection H as <-; destruct HI|].
  destruct (look x store) as [sh|] eqn:E; [|discriminate]. destruct (merge_all store t) as [l'|] eqn:E2; [|discriminate].
  cbn in H. injection H as <-. destruct HI as [HI|HI].
  - injection HI as <- <-. exists sh, r. split; [apply look_in, E|]. split; [left; reflexivity|reflexivity].
  - destruct (IH _ _ _ eq_refl HI) as (sh2 & r2 & A & B & C). exists sh2, r2. split; [exact A|]. split; [right; exact B|exact C].
Qed.
