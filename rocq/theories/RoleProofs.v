(** Proofs about roles: what a message does to one partition. *)
From Verif Require Import Base RoleModel RoleSpec.

(** ** Maps *)

Lemma get_del {A} (m : list (Z * A)) k j : get (del m k) j = if j =? k then None else get m j.
Proof.
  unfold del. induction m as [|[i a] m IH]; cbn.
  - destruct (j =? k); reflexivity.
  - destruct (Z.eqb_spec i k) as [->|N]; cbn.
    + rewrite IH. destruct (Z.eqb_spec j k) as [E|N]; [reflexivity|]. destruct (Z.eqb_spec k j) as [E|_]; [elim N; symmetry; exact E|reflexivity].
    + destruct (Z.eqb_spec i j) as [E|M]; [|exact IH]. destruct (Z.eqb_spec j k) as [F|_]; [elim N; transitivity j; assumption|reflexivity].
Qed.

Lemma get_put {A} (m : list (Z * A)) k a j : get (put m k a) j = if j =? k then Some a else get m j.
Proof.
  unfold put. cbn. rewrite get_del. destruct (Z.eqb_spec k j) as [->|N].
  - rewrite Z.eqb_refl. reflexivity.
  - destruct (Z.eqb_spec j k); [congruence|reflexivity].
Qed.

Definition distinct {A} (m : list (Z * A)) : Prop := NoDup (map fst m).

Lemma in_del {A} (m : list (Z * A)) k e : In e (del m k) <-> In e m /\ fst e <> k.
Proof.
  unfold del. rewrite filter_In, negb_true_iff, Z.eqb_neq. reflexivity.
Qed.

Lemma distinct_del {A} (m : list (Z * A)) k : distinct m -> distinct (del m k).
Proof.
  unfold distinct. induction m as [|[i a] m IH]; cbn; intro H; [constructor|].
  inversion H as [|? ? H1 H2]; subst. destruct (Z.eqb_spec i k); cbn; [exact (IH H2)|].
  constructor; [|exact (IH H2)]. intro C. apply H1. apply in_map_iff in C. destruct C as (e & E & C).
  apply in_map_iff. exists e. split; [exact E|exact (proj1 (proj1 (in_del _ _ _) C))].
Qed.

Lemma distinct_put {A} (m : list (Z * A)) k a : distinct m -> distinct (put m k a).
Proof.
  intro H. unfold distinct, put. cbn. constructor; [|exact (distinct_del m k H)].
  intro C. apply in_map_iff in C. destruct C as (e & E & C). exact (proj2 (proj1 (in_del _ _ _) C) E).
Qed.

Lemma get_in {A} (m : list (Z * A)) k a : get m k = Some a -> In (k, a) m.
Proof.
  induction m as [|[i b] m IH]; cbn; [discriminate|]. destruct (Z.eqb_spec i k) as [->|N]; intro H.
  - injection H as ->. left. reflexivity.
  - right. exact (IH H).
Qed.

Lemma in_get {A} (m : list (Z * A)) k a : distinct m -> In (k, a) m -> get m k = Some a.
Proof.
  unfold distinct. induction m as [|[i b] m IH]; cbn; [intros _ []|]. intros D [E|H].
  - injection E as -> ->. rewrite Z.eqb_refl. reflexivity.
  - inversion D as [|? ? D1 D2]; subst. destruct (Z.eqb_spec i k) as [->|N]; [|exact (IH D2 H)].
    elim D1. apply in_map_iff. exists (k, a). split; [reflexivity|exact H].
Qed.

Lemma get_none {A} (m : list (Z * A)) k : get m k = None <-> ~ In k (map fst m).
Proof.
  induction m as [|[i b] m IH]; cbn; [split; [intros _ []|reflexivity]|].
  destruct (Z.eqb_spec i k) as [->|N].
  - split; [discriminate|]. intro H. elim H. left. reflexivity.
  - rewrite IH. split; [intros H [E|C]; [exact (N E)|exact (H C)]|intros H C; apply H; right; exact C].
Qed.

Lemma existsb_mem x l : existsb (Z.eqb x) l = true <-> In x l.
Proof.
  rewrite existsb_exists. split.
  - intros (y & H & E). apply Z.eqb_eq in E. subst. exact H.
  - intro H. exists x. split; [exact H|apply Z.eqb_refl].
Qed.

Lemma rep_eqb_refl r : rep_eqb r r = true.
Proof.
  unfold rep_eqb. rewrite !Z.eqb_refl, Bool.eqb_reflx. destruct (list_eq_dec Z.eq_dec (r_replicas r) (r_replicas r)); [reflexivity|congruence].
Qed.

Lemma rep_eqb_eq a b : rep_eqb a b = true -> r_leader a = r_leader b /\ r_replicas a = r_replicas b /\ r_deleting a = r_deleting b /\ r_conf a = r_conf b.
Proof.
  unfold rep_eqb. intro H. apply andb_true_iff in H. destruct H as [H C]. apply andb_true_iff in H. destruct H as [H D].
  apply andb_true_iff in H. destruct H as [L R]. apply Z.eqb_eq in L, C. apply Bool.eqb_prop in D.
  destruct (list_eq_dec Z.eq_dec (r_replicas a) (r_replicas b)) as [E|]; [|discriminate]. tauto.
Qed.

(** ** One partition of a node *)

Definition view : Type := bool * option Z * option (list (Z * Z)).
Definition view_of (n : node) (k : Z) : view := (n_lead n k, get (n_follow n) k, n_disk n k).

Definition v_add_follower (r : rep) (v : view) : view :=
  let '(l, f, d) := v in match f with Some _ => v | None => (l, Some (r_leader r), opened d) end.
Definition v_remove (me : Z) (r : rep) (v : view) : view :=
  let '(l, f, d) := v in
  if r_leader r =? me then (if l then (false, f, None) else v)
  else match f with Some _ => (l, None, None) | None => v end.
Definition v_act (me : Z) (v : view) (a : action) : view :=
  let '(l, f, d) := v in
  match a with
  | AAdd _ r =>
      if r_deleting r then v_remove me r v
      else if r_leader r =? me then (true, f, opened d)
      else if existsb (Z.eqb me) (r_replicas r) then v_add_follower r v else v
  | ADel _ r => v_remove me r v
  | AMod _ new old =>
      if r_deleting new then v_remove me new v
      else if negb (r_leader new =? r_leader old) then
        if r_leader new =? me then match f with Some _ => (true, None, d) | None => v end
        else if r_leader old =? me then (if l then v_add_follower new (false, f, d) else v)
        else (l, Some (r_leader new), opened d)
      else v
  end.

Lemma unfollow_view n p k j : view_of (fst (unfollow n p k)) j =
  if j =? k then match get (n_follow n) k with Some _ => (n_lead n j, None, n_disk n j) | None => view_of n j end else view_of n j.
Proof.
  unfold unfollow. destruct (get (n_follow n) k) as [l|] eqn:G; cbn.
  - destruct (leader_count (del (n_follow n) k) p =? 0); unfold view_of; cbn; rewrite get_del; destruct (j =? k); reflexivity.
  - destruct (j =? k); reflexivity.
Qed.

Lemma unfollow_flag n p k : snd (unfollow n p k) = match get (n_follow n) k with Some _ => true | None => false end.
Proof. unfold unfollow. destruct (get (n_follow n) k); reflexivity. Qed.

Lemma add_follower_view n k r j : view_of (add_follower [] n k r) j =
  if j =? k then v_add_follower r (view_of n k) else view_of n j.
Proof.
  unfold add_follower. destruct (get (n_follow n) k) as [l|] eqn:G; cbn.
  - unfold view_of, v_add_follower. destruct (Z.eqb_spec j k) as [->|]; [rewrite G|]; reflexivity.
  - unfold view_of, v_add_follower. cbn [set_group set_disk set_follow n_lead n_follow n_disk]. rewrite get_put. unfold upd.
    destruct (Z.eqb_spec j k) as [->|]; [rewrite G|]; reflexivity.
Qed.

Lemma remove_view me n k r j : view_of (remove_replica me n k r) j =
  if j =? k then v_remove me r (view_of n k) else view_of n j.
Proof.
  unfold remove_replica. destruct (r_leader r =? me) eqn:L.
  - unfold view_of, v_remove. rewrite L. destruct (n_lead n k) eqn:E; cbn; unfold upd; destruct (Z.eqb_spec j k) as [->|]; try rewrite E; reflexivity.
  - pose proof (unfollow_view n (r_leader r) k j) as V. pose proof (unfollow_flag n (r_leader r) k) as F.
    destruct (unfollow n (r_leader r) k) as [n' b]. cbn [fst snd] in V, F. subst b.
    unfold v_remove, view_of at 2. rewrite L. destruct (get (n_follow n) k) as [l|] eqn:G.
    + unfold view_of in *. cbn. unfold upd. destruct (Z.eqb_spec j k) as [->|]; injection V as V1 V2 V3; rewrite ?V1, ?V2, ?V3; reflexivity.
    + rewrite V. destruct (Z.eqb_spec j k) as [->|]; [unfold view_of; rewrite G; reflexivity|reflexivity].
Qed.

Lemma act_view me n a j : view_of (act me [] n a) j = if j =? a_key a then v_act me (view_of n j) a else view_of n j.
Proof.
  assert (S : forall k (x : view), (if j =? k then view_of n j else view_of n j) = view_of n j) by (intros; destruct (j =? k); reflexivity).
  destruct a as [k r|k new old|k r]; cbn [act a_key].
  - unfold v_act. destruct (view_of n j) as [[l f] d] eqn:W. destruct (r_deleting r).
    + rewrite remove_view. destruct (Z.eqb_spec j k) as [->|]; [rewrite W; reflexivity|exact W].
    + destruct (r_leader r =? me).
      * unfold add_leader. cbn. unfold view_of in *. cbn. unfold upd. destruct (Z.eqb_spec j k) as [->|]; [|exact W].
        injection W as <- <- <-. reflexivity.
      * destruct (existsb (Z.eqb me) (r_replicas r)).
        -- rewrite add_follower_view. destruct (Z.eqb_spec j k) as [->|]; [rewrite W; reflexivity|exact W].
        -- rewrite W. destruct (j =? k); reflexivity.
  - unfold v_act. destruct (view_of n j) as [[l f] d] eqn:W. destruct (r_deleting new).
    + rewrite remove_view. destruct (Z.eqb_spec j k) as [->|]; [rewrite W; reflexivity|exact W].
    + destruct (negb (r_leader new =? r_leader old)); [|rewrite W; destruct (j =? k); reflexivity].
      destruct (r_leader new =? me).
      * unfold promote. pose proof (unfollow_view n (r_leader old) k j) as V. pose proof (unfollow_flag n (r_leader old) k) as F.
        destruct (unfollow n (r_leader old) k) as [n' b]. cbn [fst snd] in V, F. subst b. rewrite W in V.
        destruct (get (n_follow n) k) as [x|] eqn:G; cbn [existsb].
        -- unfold view_of in *. cbn. unfold upd. destruct (Z.eqb_spec j k) as [->|].
           ++ injection V as V1 V2 V3. rewrite V2, V3. injection W as W1 W2 W3. rewrite <- W2, <- W3, G. reflexivity.
           ++ exact V.
        -- rewrite V. destruct (Z.eqb_spec j k) as [->|]; [|reflexivity].
           unfold view_of in W. injection W as <- <- <-. rewrite G. reflexivity.
      * destruct (r_leader old =? me).
        -- unfold demote. destruct (n_lead n k) eqn:E.
           ++ rewrite add_follower_view. destruct (Z.eqb_spec j k) as [->|N].
              ** unfold view_of in W |- *. cbn. unfold upd. rewrite Z.eqb_refl. injection W as <- <- <-. rewrite E. reflexivity.
              ** rewrite <- W. unfold view_of. cbn. unfold upd. destruct (Z.eqb_spec j k); [congruence|reflexivity].
           ++ rewrite W. destruct (Z.eqb_spec j k) as [->|]; [|reflexivity]. unfold view_of in W. injection W as <- <- <-. rewrite E. reflexivity.
        -- unfold switch_leader. rewrite add_follower_view, !unfollow_view, Z.eqb_refl.
           destruct (Z.eqb_spec j k) as [->|N]; [|exact W]. unfold view_of in W. injection W as <- <- <-.
           destruct (get (n_follow n) k) eqn:G; unfold view_of, v_add_follower; [reflexivity|]. rewrite G. reflexivity.
  - rewrite remove_view. unfold v_act. destruct (view_of n j) as [[l f] d] eqn:W.
    destruct (Z.eqb_spec j k) as [->|]; [rewrite W; reflexivity|reflexivity].
Qed.

(** the store is not changed by actions *)
Lemma unfollow_store n p k : n_store (fst (unfollow n p k)) = n_store n /\ n_out (fst (unfollow n p k)) = n_out n.
Proof. unfold unfollow. destruct (get (n_follow n) k); cbn; [destruct (leader_count _ _ =? 0)|]; split; reflexivity. Qed.

Lemma add_follower_store bad n k r : n_store (add_follower bad n k r) = n_store n /\ n_out (add_follower bad n k r) = n_out n.
Proof. unfold add_follower. destruct (get (n_follow n) k); [|destruct (existsb (Z.eqb k) bad)]; split; reflexivity. Qed.

Lemma remove_store me n k r : n_store (remove_replica me n k r) = n_store n /\
  (forall j, In j (n_out (remove_replica me n k r)) -> In j (n_out n) \/ j = k /\ r_leader r = me).
Proof.
  unfold remove_replica. destruct (Z.eqb_spec (r_leader r) me) as [L|L].
  - split; [destruct (n_lead n k); reflexivity|]. intros j H. cbn in H.
    assert (O : n_out (if n_lead n k then set_disk (set_lead n k false) k None else n) = n_out n) by (destruct (n_lead n k); reflexivity).
    rewrite O in H. apply in_app_or in H. destruct H as [H|[H|[]]]; [left; exact H|right; split; [symmetry; exact H|exact L]].
  - pose proof (unfollow_store n (r_leader r) k) as [A B]. destruct (unfollow n (r_leader r) k) as [n' b]. cbn [fst] in A, B.
    destruct b; cbn; rewrite ?A, ?B; (split; [reflexivity|intros j H; left; exact H]).
Qed.

Lemma act_store me bad n a : n_store (act me bad n a) = n_store n /\
  (forall j, In j (n_out (act me bad n a)) -> In j (n_out n) \/
     j = a_key a /\ match a with AAdd _ r => r_deleting r = true | AMod _ r _ => r_deleting r = true | ADel _ _ => True end).
Proof.
  assert (K : forall (n' : node) (P : Z -> Prop), n_store n' = n_store n /\ n_out n' = n_out n ->
     n_store n' = n_store n /\ forall j, In j (n_out n') -> In j (n_out n) \/ P j).
  { intros n' P [A B]. split; [exact A|]. intros j H. left. rewrite <- B. exact H. }
  assert (R : forall k r (P : Prop), P -> n_store (remove_replica me n k r) = n_store n /\
     forall j, In j (n_out (remove_replica me n k r)) -> In j (n_out n) \/ j = k /\ P).
  { intros k r P p. destruct (remove_store me n k r) as [A B]. split; [exact A|]. intros j H.
    destruct (B j H) as [C|[C _]]; [left; exact C|right; split; [exact C|exact p]]. }
  destruct a as [k r|k new old|k r]; cbn [act a_key].
  - destruct (r_deleting r) eqn:D; [apply R; reflexivity|]. apply K. destruct (r_leader r =? me).
    + unfold add_leader. destruct (existsb (Z.eqb k) bad); split; reflexivity.
    + destruct (existsb (Z.eqb me) (r_replicas r)); [apply add_follower_store|split; reflexivity].
  - destruct (r_deleting new) eqn:D; [apply R; reflexivity|]. apply K.
    destruct (negb (r_leader new =? r_leader old)); [|split; reflexivity]. destruct (r_leader new =? me).
    + unfold promote. pose proof (unfollow_store n (r_leader old) k) as U. destruct (unfollow n (r_leader old) k) as [n' b]. cbn [fst] in U.
      destruct b; [destruct (existsb (Z.eqb k) bad)|]; exact U.
    + destruct (r_leader old =? me).
      * unfold demote. destruct (n_lead n k); [|split; reflexivity]. apply (add_follower_store bad (set_lead n k false) k new).
      * unfold switch_leader. destruct (add_follower_store bad (fst (unfollow n (r_leader old) k)) k new) as [A B].
        destruct (unfollow_store n (r_leader old) k) as [A' B']. rewrite A, B. split; assumption.
  - apply R. exact Logic.I.
Qed.

Definition of_key (k : Z) (l : list action) : list action := filter (fun a => k =? a_key a) l.

Lemma acts_view me acts n k : view_of (fold_left (act me []) acts n) k = fold_left (v_act me) (of_key k acts) (view_of n k).
Proof.
  revert n. induction acts as [|a acts IH]; intro n; [reflexivity|]. cbn [fold_left of_key filter].
  rewrite IH, act_view. destruct (k =? a_key a); reflexivity.
Qed.

Lemma acts_store me bad acts n : n_store (fold_left (act me bad) acts n) = n_store n.
Proof.
  revert n. induction acts as [|a acts IH]; intro n; [reflexivity|]. cbn [fold_left]. rewrite IH. apply act_store.
Qed.

Lemma acts_out me bad acts n k : In k (n_out (fold_left (act me bad) acts n)) -> In k (n_out n) \/
  exists a, In a (of_key k acts) /\ match a with AAdd _ r => r_deleting r = true | AMod _ r _ => r_deleting r = true | ADel _ _ => True end.
Proof.
  revert n. induction acts as [|a acts IH]; intros n H; [left; exact H|]. cbn [fold_left] in H. cbn [of_key filter].
  destruct (IH _ H) as [C|(b & B & Q)].
  - destruct (proj2 (act_store me bad n a) k C) as [D|[-> D]]; [left; exact D|]. right. rewrite Z.eqb_refl. exists a. split; [left; reflexivity|exact D].
  - right. exists b. split; [|exact Q]. destruct (k =? a_key a); [right|]; exact B.
Qed.

(** ** What a message makes of one key *)

Definition act_of (k : Z) (s t : option rep) : list action :=
  match t, s with
  | Some r, Some old => if rep_eqb old r then [] else [AMod k r old]
  | Some r, None => [AAdd k r]
  | None, Some old => [ADel k old]
  | None, None => []
  end.

Lemma change_key st k c : fst (change st k c) = match c, get st k with Some r, _ => put st k r | None, Some _ => del st k | None, None => st end /\
  snd (change st k c) = act_of k (get st k) c.
Proof. unfold change, act_of. destruct c, (get st k); split; reflexivity. Qed.

Lemma act_of_same k t : act_of k t t = [].
Proof. destruct t; cbn; [rewrite rep_eqb_refl|]; reflexivity. Qed.

Lemma act_of_key k s t a : In a (act_of k s t) -> a_key a = k.
Proof.
  destruct t as [r|], s as [o|]; cbn; [destruct (rep_eqb o r); [intros []|]| | |intros []]; intros [<-|[]]; reflexivity.
Qed.

Lemma of_key_act_of j k s t : of_key j (act_of k s t) = if j =? k then act_of k s t else [].
Proof.
  destruct t as [r|], s as [o|]; cbn; [destruct (rep_eqb o r)| | |]; cbn; destruct (j =? k); reflexivity.
Qed.

Lemma change_get st k c j : get (fst (change st k c)) j = if j =? k then c else get st j.
Proof.
  rewrite (proj1 (change_key st k c)). destruct c as [r|]; [apply get_put|].
  destruct (get st k) eqn:G; [apply get_del|]. destruct (Z.eqb_spec j k) as [->|]; [exact G|reflexivity].
Qed.

Definition mem_key {A} (k : Z) (l : list (Z * A)) : bool := existsb (fun e => k =? fst e) l.

Lemma changes_key l st t k : (forall c, In (k, c) l -> c = t) ->
  get (fst (changes st l)) k = (if mem_key k l then t else get st k) /\
  of_key k (snd (changes st l)) = (if mem_key k l then act_of k (get st k) t else []).
Proof.
  revert st. induction l as [|[j c] l IH]; intros st H; [split; reflexivity|].
  cbn [changes mem_key existsb fst]. destruct (change st j c) as [st1 a] eqn:E.
  assert (G : get st1 k = if k =? j then c else get st k) by (pose proof (change_get st j c k) as X; rewrite E in X; exact X).
  assert (A : of_key k a = if k =? j then act_of k (get st k) c else []).
  { pose proof (proj2 (change_key st j c)) as X. rewrite E in X. cbn [snd] in X. subst a. rewrite of_key_act_of.
    destruct (Z.eqb_spec k j) as [->|]; reflexivity. }
  destruct (changes st1 l) as [st2 b] eqn:F. cbn [fst snd].
  assert (H' : forall c0, In (k, c0) l -> c0 = t) by (intros c0 I; apply H; right; exact I).
  destruct (IH st1 H') as [G2 A2]. rewrite F in G2, A2. cbn [fst snd] in G2, A2.
  unfold of_key in *. rewrite filter_app, A, A2, G2, G. destruct (Z.eqb_spec k j) as [<-|N]; cbn [orb].
  - assert (C : c = t) by (apply H; left; reflexivity). rewrite C. clear.
    destruct (mem_key k l); (split; [reflexivity|]); [rewrite act_of_same|]; apply app_nil_r.
  - split; reflexivity.
Qed.

Lemma changes_distinct l st : distinct st -> distinct (fst (changes st l)).
Proof.
  revert st. induction l as [|[j c] l IH]; intros st H; [exact H|]. cbn [changes].
  pose proof (proj1 (change_key st j c)) as X. destruct (change st j c) as [st1 a]. cbn [fst] in X.
  assert (D : distinct st1). { subst st1. destruct c; [apply distinct_put; exact H|]. destruct (get st j); [apply distinct_del|]; exact H. }
  pose proof (IH st1 D) as R. destruct (changes st1 l). exact R.
Qed.

(** ** Delivery *)

(** the keys whose state in the metadata a message carries *)
Definition delivered (truth : list (Z * rep)) (e : event) (k : Z) : bool :=
  match e with
  | Sync _ => match truth with [] => false | _ => true end
  | Told ks _ => existsb (Z.eqb k) ks
  | _ => false
  end.

Definition message_for (truth : list (Z * rep)) (st : list (Z * rep)) (e : event) : list (Z * rep) * list action :=
  match e with Sync _ => apply_msg st truth [] | Told ks _ => apply_msg st [] (updates_of truth ks) | _ => (st, []) end.

Lemma updates_mem truth ks k : mem_key k (updates_of truth ks) = existsb (Z.eqb k) ks.
Proof.
  unfold updates_of, mem_key. rewrite existsb_app. induction ks as [|j ks IH]; [reflexivity|].
  cbn [flat_map existsb]. rewrite !existsb_app, <- IH.
  destruct (get truth j); cbn; destruct (k =? j); cbn; rewrite ?orb_true_r, ?orb_false_r; reflexivity.
Qed.

Lemma updates_val truth ks k c : In (k, c) (updates_of truth ks) -> c = get truth k.
Proof.
  unfold updates_of. intro H. apply in_app_or in H. destruct H as [H|H]; apply in_flat_map in H; destruct H as (j & _ & H);
    destruct (get truth j) eqn:G; try contradiction; destruct H as [H|[]]; injection H as <- <-; symmetry; exact G.
Qed.

Lemma sync_mem (st all : list (Z * rep)) k : mem_key k (map (fun e => (fst e, Some (snd e))) all ++
    map (fun k => (k, @None rep)) (filter (fun k => negb (existsb (Z.eqb k) (map fst all))) (map fst st))) = true <->
  get all k <> None \/ get st k <> None.
Proof.
  unfold mem_key. rewrite existsb_exists. split.
  - intros ((j & c) & H & E). apply Z.eqb_eq in E. cbn in E. subst j. apply in_app_or in H. destruct H as [H|H].
    + apply in_map_iff in H. destruct H as ((j & r) & E & H). injection E as -> <-. left. intro C. apply get_none in C. apply C.
      apply in_map_iff. exists (k, r). split; [reflexivity|exact H].
    + apply in_map_iff in H. destruct H as (j & E & H). injection E as -> <-. apply filter_In in H. right. intro C. apply get_none in C. apply C. apply H.
  - intros H. destruct (get all k) as [r|] eqn:G.
    + exists (k, Some r). split; [|apply Z.eqb_refl]. apply in_or_app. left. apply in_map_iff. exists (k, r). split; [reflexivity|apply get_in; exact G].
    + exists (k, None). split; [|apply Z.eqb_refl]. apply in_or_app. right. apply in_map_iff. exists k. split; [reflexivity|].
      apply filter_In. split.
      * destruct H as [H|H]; [congruence|]. destruct (get st k) as [r|] eqn:S; [|congruence]. apply get_in in S. apply in_map_iff. exists (k, r). split; [reflexivity|exact S].
      * apply negb_true_iff. destruct (existsb (Z.eqb k) (map fst all)) eqn:X; [|reflexivity]. apply existsb_mem in X. apply get_none in G. contradiction.
Qed.

Lemma message_key truth st e k : distinct truth ->
  get (fst (message_for truth st e)) k = (if delivered truth e k then get truth k else get st k) /\
  of_key k (snd (message_for truth st e)) = (if delivered truth e k then act_of k (get st k) (get truth k) else []).
Proof.
  intro D. destruct e; try (split; reflexivity); cbn [message_for delivered].
  - destruct truth as [|x truth]; [split; reflexivity|]. cbn [apply_msg]. unfold sync_all. set (all := x :: truth) in *.
    match goal with |- context [changes st ?l] => set (lst := l) end.
    assert (V : forall c, In (k, c) lst -> c = get all k).
    { intros c H. unfold lst in H. apply in_app_or in H. destruct H as [H|H]; apply in_map_iff in H.
      - destruct H as ((j & r) & E & H). injection E as -> <-. symmetry. apply in_get; assumption.
      - destruct H as (j & E & H). injection E as -> <-. apply filter_In in H. destruct H as [_ H]. apply negb_true_iff in H.
        symmetry. apply get_none. intro C. apply existsb_mem in C. congruence. }
    destruct (changes_key lst st (get all k) k V) as [A B]. rewrite A, B.
    destruct (mem_key k lst) eqn:M; [split; reflexivity|].
    assert (N : ~ (get all k <> None \/ get st k <> None)) by (intro C; apply (proj2 (sync_mem st all k)) in C; fold lst in C; congruence).
    destruct (get all k) as [r|] eqn:G; [elim N; left; discriminate|]. destruct (get st k) as [r|] eqn:S; [elim N; right; discriminate|]. split; reflexivity.
  - cbn [apply_msg]. destruct (changes_key (updates_of truth ks) st (get truth k) k (updates_val truth ks k)) as [A B].
    rewrite A, B, updates_mem. split; reflexivity.
Qed.

Lemma message_distinct truth st e : distinct st -> distinct (fst (message_for truth st e)).
Proof.
  intro D. destruct e; try exact D; cbn [message_for].
  - destruct truth as [|x truth]; cbn [apply_msg]; apply changes_distinct; exact D.
  - cbn [apply_msg]. apply changes_distinct. exact D.
Qed.

Definition is_message (e : event) : bool := match e with Sync _ => true | Told _ _ => true | _ => false end.
Definition bad_of (e : event) : list Z := match e with Sync b => b | Told _ b => b | _ => [] end.

Lemma sstep_message me s e : is_message e = true ->
  sstep me s e = on_node s (fun n => let '(st, acts) := message_for (s_truth s) (n_store n) e in fold_left (act me (bad_of e)) acts (set_store n st)).
Proof. destruct e; try discriminate; intros _; reflexivity. Qed.
