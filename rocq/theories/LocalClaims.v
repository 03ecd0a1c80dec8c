(** Proofs about operations of the local metadata storage that run alone. *)
From Coq Require Import Sorting.Sorted.
From Verif Require Export LocalProofs.

(** * Operations step by step *)
Definition same_kinds (s s' : sys) : Prop :=
  forall h t, nth_error (y_heap s) h = Some t -> exists t', nth_error (y_heap s') h = Some t' /\ t_kind t' = t_kind t.
Lemma same_refl s : same_kinds s s.
Proof. intros h t E. eauto. Qed.
Lemma same_trans a b c : same_kinds a b -> same_kinds b c -> same_kinds a c.
Proof. intros A B h t E. destruct (A h t E) as [t1 [E1 K1]]. destruct (B h t1 E1) as [t2 [E2 K2]]. exists t2. split; congruence. Qed.
Lemma same_set s s' h t x : nth_error (y_heap s) h = Some t -> y_heap s' = set_nth h x (y_heap s) -> t_kind x = t_kind t -> same_kinds s s'.
Proof.
  intros E H K h' t' E'. rewrite H, nth_set. destruct (Nat.eqb_spec h' h) as [->|]; [|eauto].
  rewrite E. exists x. split; [reflexivity|congruence].
Qed.

Lemma exec_get_store s k c s' r : good s -> exec (get_store k c) s = Some (s', r) ->
  exists s1 h t, good s1 /\ y_disk s1 = y_disk s /\ nth_error (y_heap s1) h = Some t /\ t_kind t = k /\
    (forall h' t', nth_error (y_heap s) h' = Some t' -> nth_error (y_heap s1) h' = Some t') /\
    (s1 = s \/ exists d, y_heap s1 = y_heap s ++ [mkStore k 0 d []]) /\
    exec (c h) s1 = Some (s', r).
Proof.
  intros G H. unfold get_store in H. cbn [exec] in H. change (micro_step s (Look k) Fine) with (Some (s, RStore (lookup k (y_stores s)))) in H.
  cbv beta iota in H. destruct (lookup k (y_stores s)) as [h|] eqn:L.
  - destruct (g_table s G k h L) as [t [E K]]. exists s, h, t. split; [exact G|]. split; [reflexivity|]. split; [exact E|]. split; [exact K|]. split; [auto|]. split; [left; reflexivity|exact H].
  - cbn [exec] in H. destruct (micro_step s (Load k) Fine) as [[s1 r1]|] eqn:M; [|discriminate].
    destruct (load_step s k s1 r1 G L M) as [d [G1 [D [-> [Hh _]]]]].
    exists s1, (length (y_heap s)), (mkStore k 0 d []). split; [exact G1|]. split; [exact D|].
    split; [rewrite Hh, nth_error_app2, Nat.sub_diag by lia; reflexivity|]. split; [reflexivity|].
    split; [|split; [right; eauto|exact H]].
    intros h' t' E. rewrite Hh, nth_error_app1; [exact E|]. apply nth_error_Some. congruence.
Qed.

Definition told (t : store) (d : list (name * obj)) (u : update) : store := mkStore (t_kind t) (t_version t + 1) d (t_queue t ++ [(t_version t, u)]).
Lemma set_set {A} i (x y : A) l : set_nth i x (set_nth i y l) = set_nth i x l.
Proof. revert l. induction i as [|i IH]; intros [|a l]; cbn; [..|rewrite IH]; reflexivity. Qed.
Lemma exec_send s h t u c s' r : good s -> nth_error (y_heap s) h = Some t -> exec (send_update h u c) s = Some (s', r) ->
  exists s1, good s1 /\ y_disk s1 = y_disk s /\ y_stores s1 = y_stores s /\
    y_heap s1 = set_nth h (told t (t_data t) u) (y_heap s) /\ exec c s1 = Some (s', r).
Proof.
  intros G E H. unfold send_update in H. cbn [exec] in H.
  destruct (micro_step s (Number h) Fine) as [[s1 r1]|] eqn:M1; [|discriminate].
  destruct (quiet_step s _ Fine s1 r1 G M1) as [G1 D1]; [discriminate|exact Logic.I|].
  cbn [micro_step] in M1. rewrite E in M1. injection M1 as <- <-. cbn [exec] in H.
  match type of H with context [micro_step ?a ?b Fine] => destruct (micro_step a b Fine) as [[s2 r2]|] eqn:M2 end; [|discriminate].
  destruct (quiet_step _ _ Fine s2 r2 G1 M2) as [G2 D2]; [discriminate|exact Logic.I|].
  cbn [micro_step y_heap] in M2. rewrite nth_set, Nat.eqb_refl, E in M2. cbn [t_queue t_kind t_version t_data] in M2.
  destruct (Nat.ltb (length (t_queue t)) max_updates); [|discriminate]. injection M2 as <- <-.
  eexists. split; [exact G2|]. split; [reflexivity|]. split; [reflexivity|]. split; [|exact H].
  cbn [y_heap]. apply set_set.
Qed.
Lemma exec_apply s h t o c s' r : good s -> nth_error (y_heap s) h = Some t -> exec (store_apply h o c) s = Some (s', r) ->
  (r = RErr /\ s' = s) \/
  exists s1 o', stored (visible s (t_kind t) (o_name o)) o o' /\ good s1 /\
    (forall k n, visible s1 k n = if Nat.eqb k (t_kind t) && Nat.eqb n (o_name o) then Some o' else visible s k n) /\
    y_heap s1 = set_nth h (told t (put (o_name o) o' (t_data t)) (Mod o')) (y_heap s) /\
    exec c s1 = Some (s', r).
Proof.
  intros G E H. unfold store_apply in H. cbn [exec] in H.
  destruct (micro_step s (Put h o) Fine) as [[s1 r1]|] eqn:M; [|discriminate].
  destruct (put_step _ _ _ _ _ G M) as [t' [E' D]]. rewrite E in E'. injection E' as <-.
  destruct D as [[-> [-> _]]|[o' [-> [St [G1 [S1 [H1 V1]]]]]]].
  - cbn [exec] in H. injection H as <- <-. left. auto.
  - right.
    assert (E1 : nth_error (y_heap s1) h = Some (mkStore (t_kind t) (t_version t) (put (o_name o) o' (t_data t)) (t_queue t))) by (rewrite H1, nth_set, Nat.eqb_refl, E; reflexivity).
    destruct (exec_send _ _ _ _ _ _ _ G1 E1 H) as [s2 [G2 [D2 [_ [H2 X]]]]].
    exists s2, o'. split; [exact St|]. split; [exact G2|]. split; [|split; [|exact X]].
    + intros k n. rewrite (visible_same s1 s2 G1 G2 D2). apply V1.
    + rewrite H2, H1, set_set. reflexivity.
Qed.
Lemma exec_delete s h t n0 c s' r : good s -> nth_error (y_heap s) h = Some t -> exec (store_delete h n0 c) s = Some (s', r) ->
  exists s1, good s1 /\
    (forall k n, visible s1 k n = if Nat.eqb k (t_kind t) && Nat.eqb n n0 then None else visible s k n) /\
    match visible s (t_kind t) n0 with
    | None => s1 = s
    | Some o => y_heap s1 = set_nth h (told t (del n0 (t_data t)) (Del o)) (y_heap s)
    end /\
    exec c s1 = Some (s', r).
Proof.
  intros G E H. unfold store_delete in H. cbn [exec] in H.
  destruct (micro_step s (Remove h n0) Fine) as [[s1 r1]|] eqn:M; [|discriminate].
  destruct (remove_step _ _ _ _ _ G M) as [t' [E' [-> [G1 [S1 [V1 H1]]]]]]. rewrite E in E'. injection E' as <-.
  destruct (visible s (t_kind t) n0) as [o|] eqn:V.
  - assert (E1 : nth_error (y_heap s1) h = Some (mkStore (t_kind t) (t_version t) (del n0 (t_data t)) (t_queue t))) by (rewrite H1, nth_set, Nat.eqb_refl, E; reflexivity).
    destruct (exec_send _ _ _ _ _ _ _ G1 E1 H) as [s2 [G2 [D2 [_ [H2 X]]]]].
    exists s2. split; [exact G2|]. split; [|split; [|exact X]].
    + intros k n. rewrite (visible_same s1 s2 G1 G2 D2). apply V1.
    + rewrite H2, H1, set_set. reflexivity.
  - subst s1. exists s. auto.
Qed.
Lemma exec_get s h t n c s' r : good s -> nth_error (y_heap s) h = Some t -> exec (Do (Get h n) c) s = Some (s', r) ->
  exec (c (RObj (visible s (t_kind t) n))) s = Some (s', r).
Proof. intros G E H. cbn [exec micro_step] in H. rewrite E in H. rewrite (visible_at s h t n G E). exact H. Qed.

(** * Deletion *)
Definition mem (m : list (kind * list item)) (k : kind) (n : name) : bool :=
  existsb (fun x => Nat.eqb k (fst x) && existsb (fun i => Nat.eqb n (i_id i)) (snd x)) m.

Lemma exec_delete_list l : forall s h t c s' r, good s -> nth_error (y_heap s) h = Some t -> exec (delete_list h l c) s = Some (s', r) ->
  exists s1, good s1 /\ same_kinds s s1 /\
    (forall k n, visible s1 k n = if Nat.eqb k (t_kind t) && existsb (fun i => Nat.eqb n (i_id i)) l then None else visible s k n) /\
    exec c s1 = Some (s', r).
Proof.
  induction l as [|i l IH]; intros s h t c s' r G E H.
  - exists s. split; [exact G|]. split; [apply same_refl|]. split; [|exact H]. intros k n. cbn. rewrite andb_false_r. reflexivity.
  - cbn [delete_list] in H. destruct (exec_delete _ _ _ _ _ _ _ G E H) as [s1 [G1 [V1 [H1 X1]]]].
    assert (K : same_kinds s s1).
    { destruct (visible s (t_kind t) (i_id i)); [eapply same_set; eauto|subst s1; apply same_refl]. }
    destruct (K h t E) as [t1 [E1 K1]]. destruct (IH _ _ _ _ _ _ G1 E1 X1) as [s2 [G2 [K2 [V2 X2]]]].
    exists s2. split; [exact G2|]. split; [eapply same_trans; eauto|]. split; [|exact X2].
    intros k n. rewrite V2, V1, K1. cbn [existsb].
    destruct (Nat.eqb k (t_kind t)); [|reflexivity]. cbn [andb].
    destruct (Nat.eqb n (i_id i)); cbn [orb]; [destruct (existsb _ l); reflexivity|reflexivity].
Qed.
Lemma exec_delete_children m : forall s c s' r, good s -> exec (delete_children m c) s = Some (s', r) ->
  r = RErr \/ exists s1, good s1 /\ same_kinds s s1 /\
    (forall k n, visible s1 k n = if mem m k n then None else visible s k n) /\ exec c s1 = Some (s', r).
Proof.
  induction m as [|[k0 l] m IH]; intros s c s' r G H.
  - right. exists s. split; [exact G|]. split; [apply same_refl|]. split; [reflexivity|exact H].
  - cbn [delete_children exec] in H. change (micro_step s (Look k0) Fine) with (Some (s, RStore (lookup k0 (y_stores s)))) in H. cbv beta iota in H.
    destruct (lookup k0 (y_stores s)) as [h|] eqn:L; [|cbn [exec] in H; injection H as _ <-; left; reflexivity].
    destruct (g_table s G k0 h L) as [t [E K]]. destruct (exec_delete_list _ _ _ _ _ _ _ G E H) as [s1 [G1 [K1 [V1 X1]]]].
    destruct (IH _ _ _ _ G1 X1) as [->|[s2 [G2 [K2 [V2 X2]]]]]; [left; reflexivity|].
    right. exists s2. split; [exact G2|]. split; [eapply same_trans; eauto|]. split; [|exact X2].
    intros k n. rewrite V2, V1, K. unfold mem. cbn [existsb fst snd].
    destruct (Nat.eqb k k0 && existsb (fun i => Nat.eqb n (i_id i)) l); cbn [orb]; [destruct (existsb _ m); reflexivity|reflexivity].
Qed.

Section Owners.
Context (owner : kind -> kind).

Lemma exec_relink change s k p ch c s' r : (forall i k c, i_id (change i k c) = i_id i) -> (forall i k c, i_rev (change i k c) = i_rev i) ->
  good s -> exec (relink owner change k p ch c) s = Some (s', r) ->
  r = RErr \/ exists s1 po, visible s (owner k) (i_id p) = Some po /\ good s1 /\ same_kinds s s1 /\
    (forall k' n, visible s1 k' n = if Nat.eqb k' (owner k) && Nat.eqb n (i_id p) then Some (with_item po (with_rev (change (o_item po) k (without_parent ch)) (o_rev po + 1))) else visible s k' n) /\
    exec c s1 = Some (s', r).
Proof.
  intros Ci Cr G H. unfold relink in H. destruct (exec_get_store _ _ _ _ _ G H) as [s1 [h [t [G1 [D1 [E1 [K1 [F1 [_ X1]]]]]]]]].
  apply (exec_get _ _ _ _ _ _ _ G1 E1) in X1. rewrite K1, (visible_same s s1 G G1 D1) in X1.
  destruct (visible s (owner k) (i_id p)) as [po|] eqn:V; [|cbn [exec] in X1; injection X1 as _ <-; left; reflexivity].
  pose proof (visible_name s _ _ _ G V) as Hn. unfold o_name in Hn.
  destruct (exec_apply _ _ _ _ _ _ _ G1 E1 X1) as [[-> _]|[s2 [o' [St [G2 [V2 [H2 X2]]]]]]]; [left; reflexivity|].
  right. exists s2, po. split; [reflexivity|]. split; [exact G2|]. split.
  { eapply same_trans; [intros h' t' E'; exists t'; split; [apply F1; exact E'|reflexivity]|]. eapply same_set; eauto. }
  split; [|exact X2].
  assert (N : o_name (with_item po (change (o_item po) k (without_parent ch))) = i_id p) by (unfold o_name; cbn; rewrite Ci; exact Hn).
  rewrite N in V2, St. rewrite K1, (visible_same s s1 G G1 D1), V in St. destruct St as [_ ->].
  intros k' n. rewrite V2, K1, (visible_same s s1 G G1 D1). reflexivity.
Qed.

Definition children_of (o : obj) : list (kind * list item) := match i_children (o_item o) with Some m => m | None => [] end.
(** After a deletion: what is deleted, and the object of the owner. *)
Definition deleted (V V' : kind -> name -> option obj) (k : kind) (n : name) (o : obj) : Prop :=
  let hit k' n' := (Nat.eqb k' k && Nat.eqb n' n) || mem (children_of o) k' n' in
  match i_parent (o_item o) with
  | None => forall k' n', V' k' n' = if hit k' n' then None else V k' n'
  | Some p => exists po, V (owner k) (i_id p) = Some po /\ forall k' n', V' k' n' =
      if hit k' n' then None
      else if Nat.eqb k' (owner k) && Nat.eqb n' (i_id p) then Some (with_item po (with_rev (remove_child (o_item po) k (without_parent (o_item o))) (o_rev po + 1)))
      else V k' n'
  end.
Lemma delete_effect s k i s' r : good s -> exec (prog_of owner (Delete k i)) s = Some (s', r) -> r <> RErr ->
  good s' /\ match visible s k (i_id i) with
             | None => forall k' n', visible s' k' n' = visible s k' n'
             | Some o => deleted (visible s) (visible s') k (i_id i) o
             end.
Proof.
  intros G H NE. cbn [prog_of] in H. destruct (exec_get_store _ _ _ _ _ G H) as [s1 [h [t [G1 [D1 [E1 [K1 [F1 [_ X1]]]]]]]]].
  apply (exec_get _ _ _ _ _ _ _ G1 E1) in X1. rewrite K1, (visible_same s s1 G G1 D1) in X1.
  destruct (visible s k (i_id i)) as [o|] eqn:V.
  2:{ cbn [exec] in X1. injection X1 as <- _. split; [exact G1|]. intros. apply visible_same; auto. }
  assert (Rest : forall s2, good s2 -> same_kinds s1 s2 ->
    exec (delete_children (children_of o) (store_delete h (i_id i) (Ret RUnit))) s2 = Some (s', r) ->
    good s' /\ forall k' n', visible s' k' n' = if (Nat.eqb k' k && Nat.eqb n' (i_id i)) || mem (children_of o) k' n' then None else visible s2 k' n').
  { intros s2 G2 K2 X2. destruct (exec_delete_children _ _ _ _ _ G2 X2) as [->|[s3 [G3 [K3 [V3 X3]]]]]; [congruence|].
    destruct (same_trans _ _ _ K2 K3 h t E1) as [t3 [E3 Kt3]].
    destruct (exec_delete _ _ _ _ _ _ _ G3 E3 X3) as [s4 [G4 [V4 [_ X4]]]]. cbn [exec] in X4. injection X4 as <- _.
    split; [exact G4|]. intros k' n'. rewrite V4, V3, Kt3, K1. destruct (Nat.eqb k' k && Nat.eqb n' (i_id i)); reflexivity. }
  unfold deleted. destruct (i_parent (o_item o)) as [p|] eqn:P.
  - destruct (exec_relink remove_child _ _ _ _ _ _ _ (fun _ _ _ => eq_refl) (fun _ _ _ => eq_refl) G1 X1) as [->|[s2 [po [Vp [G2 [K2 [V2 X2]]]]]]]; [congruence|].
    destruct (Rest s2 G2 K2 X2) as [G' V']. split; [exact G'|]. rewrite (visible_same s s1 G G1 D1) in Vp. exists po. split; [exact Vp|].
    intros k' n'. rewrite V', V2, (visible_same s s1 G G1 D1). reflexivity.
  - destruct (Rest s1 G1 (same_refl s1) X1) as [G' V']. split; [exact G'|].
    intros k' n'. rewrite V', (visible_same s s1 G G1 D1). reflexivity.
Qed.

Definition upd (V : kind -> name -> option obj) (k : kind) (n : name) (o : obj) (k' : kind) (n' : name) : option obj :=
  if Nat.eqb k' k && Nat.eqb n' n then Some o else V k' n'.
Lemma apply_effect s k o s' r : good s -> exec (prog_of owner (Apply k o)) s = Some (s', r) -> r <> RErr ->
  good s' /\ exists o', stored (visible s k (o_name o)) o o' /\
    match i_parent (o_item o) with
    | None => forall k' n', visible s' k' n' = upd (visible s) k (o_name o) o' k' n'
    | Some p => exists po, upd (visible s) k (o_name o) o' (owner k) (i_id p) = Some po /\
        forall k' n', visible s' k' n' = upd (upd (visible s) k (o_name o) o') (owner k) (i_id p) (with_item po (with_rev (put_child (o_item po) k (without_parent (o_item o))) (o_rev po + 1))) k' n'
    end.
Proof.
  intros G H NE. cbn [prog_of] in H. destruct (exec_get_store _ _ _ _ _ G H) as [s1 [h [t [G1 [D1 [E1 [K1 [F1 [_ X1]]]]]]]]].
  destruct (exec_apply _ _ _ _ _ _ _ G1 E1 X1) as [[-> _]|[s2 [o' [St [G2 [V2 [H2 X2]]]]]]]; [congruence|].
  rewrite K1, (visible_same s s1 G G1 D1) in St.
  assert (V2' : forall k' n', visible s2 k' n' = upd (visible s) k (o_name o) o' k' n').
  { intros k' n'. rewrite V2, K1, (visible_same s s1 G G1 D1). reflexivity. }
  destruct (i_parent (o_item o)) as [p|].
  - destruct (exec_relink put_child _ _ _ _ _ _ _ (fun _ _ _ => eq_refl) (fun _ _ _ => eq_refl) G2 X2) as [->|[s3 [po [Vp [G3 [K3 [V3 X3]]]]]]]; [congruence|].
    cbn [exec] in X3. injection X3 as <- _. split; [exact G3|]. exists o'. split; [exact St|]. exists po. rewrite V2' in Vp. split; [exact Vp|].
    intros k' n'. rewrite V3, V2'. reflexivity.
  - cbn [exec] in X2. injection X2 as <- _. split; [exact G2|]. exists o'. split; [exact St|exact V2'].
Qed.
(** The other changes: one object is stored. *)
Definition new_value (s : sys) (a : op) : option (kind * obj) :=
  match a with
  | UpdateSpec k i spec => Some (k, mkObj i spec (match visible s k (i_id i) with Some o => o_status o | None => 0 end))
  | UpdateByKey k n spec => Some (k, match visible s k n with Some o => mkObj (o_item o) spec (o_status o) | None => mkObj (mkItem n 0 None None) spec 0 end)
  | UpdateStatus k i status => Some (k, mkObj i (match visible s k (i_id i) with Some o => o_spec o | None => 0 end) status)
  | _ => None
  end.
Lemma update_effect s a k o s' r : good s -> exec (prog_of owner a) s = Some (s', r) -> r <> RErr -> new_value s a = Some (k, o) ->
  good s' /\ exists o', stored (visible s k (o_name o)) o o' /\ forall k' n', visible s' k' n' = upd (visible s) k (o_name o) o' k' n'.
Proof.
  intros G H NE N.
  assert (F : forall s1 h t o1 c, good s1 -> y_disk s1 = y_disk s -> nth_error (y_heap s1) h = Some t -> t_kind t = k ->
    exec (store_apply h o1 c) s1 = Some (s', r) -> (forall s2 s3 r', exec c s2 = Some (s3, r') -> s3 = s2) -> o = o1 ->
    good s' /\ exists o', stored (visible s k (o_name o)) o o' /\ forall k' n', visible s' k' n' = upd (visible s) k (o_name o) o' k' n').
  { intros s1 h t o1 c G1 D1 E1 K1 X1 C ->. destruct (exec_apply _ _ _ _ _ _ _ G1 E1 X1) as [[-> _]|[s2 [o' [St [G2 [V2 [H2 X2]]]]]]]; [congruence|].
    apply C in X2. subst s2. split; [exact G2|]. exists o'. rewrite K1, (visible_same s s1 G G1 D1) in St. split; [exact St|].
    intros k' n'. rewrite V2, K1, (visible_same s s1 G G1 D1). reflexivity. }
  destruct a as [k0 o0|k0 i0|k0 i spec|k0 n spec|k0 i status|k0]; try discriminate N; cbn [new_value] in N; injection N as <- No;
    cbn [prog_of] in H; destruct (exec_get_store _ _ _ _ _ G H) as [s1 [h [t [G1 [D1 [E1 [K1 [F1 [_ X1]]]]]]]]];
    apply (exec_get _ _ _ _ _ _ _ G1 E1) in X1; rewrite K1, (visible_same s s1 G G1 D1) in X1.
  - destruct (visible s k0 (i_id i)) as [o1|] eqn:V;
      (eapply F; [exact G1|exact D1|exact E1|exact K1|exact X1|intros s2 s3 r' [= <- _]; reflexivity|symmetry; exact No]).
  - destruct (visible s k0 n) as [o1|] eqn:V;
      (eapply F; [exact G1|exact D1|exact E1|exact K1|exact X1|intros s2 s3 r' [= <- _]; reflexivity|symmetry; exact No]).
  - destruct (visible s k0 (i_id i)) as [o1|] eqn:V; [|cbn [exec] in X1; injection X1 as _ <-; congruence].
    eapply F; [exact G1|exact D1|exact E1|exact K1|exact X1| |symmetry; exact No].
    intros s2 s3 r' X. cbn [exec micro_step] in X. destruct (nth_error (y_heap s2) h) as [t2|]; [|discriminate].
    destruct (lookup (i_id i) (t_data t2)); cbn [exec] in X; injection X as <- _; reflexivity.
Qed.
Lemma list_effect s k s' r : good s -> exec (prog_of owner (List k)) s = Some (s', r) -> good s' /\ forall k' n', visible s' k' n' = visible s k' n'.
Proof.
  intros G H. cbn [prog_of] in H. destruct (exec_get_store _ _ _ _ _ G H) as [s1 [h [t [G1 [D1 [E1 [K1 [F1 [_ X1]]]]]]]]].
  cbn [exec micro_step] in X1. rewrite E1 in X1. cbv beta iota in X1. cbn [exec micro_step] in X1. rewrite E1 in X1. cbn [exec] in X1. injection X1 as <- _. split; [exact G1|]. intros. apply visible_same; auto.
Qed.
End Owners.
