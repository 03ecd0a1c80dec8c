(** The invariant of orderly histories, and the claims. *)
From Verif Require Import Base RoleModel RoleSpec RoleProofs.

Definition known_inv (me : Z) (o : rep) (v : view) : Prop :=
  let '(l, f, d) := v in
  (forall lst x, d = Some lst -> In x lst -> fst x = r_inc o) /\
  if r_deleting o then l = false /\ f = None /\ d = None
  else if r_leader o =? me then l = true /\ f = None /\ d <> None
  else if existsb (Z.eqb me) (r_replicas o) then l = false /\ f = Some (r_leader o) /\ d <> None
  else l = false /\ (f = None /\ d = None \/ f = Some (r_leader o) /\ d <> None).

Definition unknown_inv (me : Z) (t : option rep) (v : view) : Prop :=
  let '(l, f, d) := v in
  l = false /\ f = None /\
  (d <> None -> exists r, t = Some r /\ r_deleting r = false /\ In me (r_replicas r)) /\
  (forall lst x, d = Some lst -> In x lst -> exists r, t = Some r /\ fst x = r_inc r).

Definition led (r : rep) : Prop := In (r_leader r) (r_replicas r).

Definition follows_on (o r : rep) : Prop :=
  r_inc o = r_inc r /\ r_replicas o = r_replicas r /\ (r_deleting o = true -> r_deleting r = true) /\
  (r_deleting r = true -> r_deleting o = false -> r_leader o = r_leader r).

Definition kinv (me : Z) (t s : option rep) (v : view) (out : Prop) : Prop :=
  (forall r, t = Some r -> led r) /\ (forall o, s = Some o -> led o) /\
  (forall o r, s = Some o -> t = Some r -> follows_on o r) /\
  (out -> forall r, t = Some r -> r_deleting r = true) /\
  match s with None => unknown_inv me t v | Some o => known_inv me o v end.

Definition inv (me : Z) (s : sys) : Prop :=
  distinct (s_truth s) /\ distinct (n_store (s_node s)) /\
  forall k, kinv me (actual s k) (known s k) (view_of (s_node s) k) (In k (n_out (s_node s))).

Lemma follows_self r : follows_on r r.
Proof. unfold follows_on. tauto. Qed.

Lemma led_involved me r : led r -> r_leader r = me -> existsb (Z.eqb me) (r_replicas r) = true.
Proof. intros L E. apply existsb_mem. rewrite <- E. exact L. Qed.

(** the removal of a known partition *)
Lemma removed me o r v : known_inv me o v -> led o -> r_replicas o = r_replicas r ->
  (r_deleting o = false -> r_leader o = r_leader r) -> v_remove me r v = (false, None, None).
Proof.
  destruct v as [[l f] d]. intros [_ K] Lo R E. unfold v_remove. destruct (r_deleting o).
  - destruct K as (-> & -> & ->). destruct (r_leader r =? me); reflexivity.
  - rewrite <- (E eq_refl). destruct (r_leader o =? me); [destruct K as (-> & -> & _); reflexivity|].
    destruct (existsb (Z.eqb me) (r_replicas o)).
    + destruct K as (-> & -> & _). reflexivity.
    + destruct K as (-> & [[-> ->]|[-> _]]); reflexivity.
Qed.

Lemma opened_some d : opened d <> None.
Proof. destruct d; discriminate. Qed.

Lemma opened_in d lst (x : Z * Z) : opened d = Some lst -> In x lst -> d = Some lst.
Proof. destruct d; cbn; intros E H; [exact E|]. injection E as <-. destruct H. Qed.

(** what a message does to the invariant of one key *)
Lemma deliver_key me k t s v (out out' : Prop) : kinv me t s v out ->
  (out' -> out \/ exists a, In a (act_of k s t) /\ match a with AAdd _ r => r_deleting r = true | AMod _ r _ => r_deleting r = true | ADel _ _ => True end) ->
  kinv me t t (fold_left (v_act me) (act_of k s t) v) out'.
Proof.
  intros (Lt & Ls & FO & O & K) HO. unfold kinv.
  split; [exact Lt|]. split; [exact Lt|].
  split. { intros o r E1 E2. rewrite E1 in E2. injection E2 as ->. apply follows_self. }
  split.
  { intros X r E. destruct (HO X) as [Y|(a & A & B)]; [exact (O Y r E)|]. subst t. destruct s as [o|]; cbn in A.
    - destruct (rep_eqb o r); [destruct A|]. destruct A as [<-|[]]. exact B.
    - destruct A as [<-|[]]; exact B. }
  destruct t as [r|].
  - pose proof (Lt r eq_refl) as Lr. destruct s as [o|].
    + destruct (FO o r eq_refl eq_refl) as (EI & ER & D1 & D2). pose proof (Ls o eq_refl) as Lo. cbn [act_of].
      destruct (rep_eqb o r) eqn:EQ.
      { cbn [fold_left]. destruct (rep_eqb_eq o r EQ) as (E1 & E2 & E3 & E4). destruct v as [[l f] d]. unfold known_inv in *.
        rewrite <- E1, <- E2, <- E3, <- EI. exact K. }
      cbn [fold_left]. destruct v as [[l f] d]. cbn [v_act]. destruct (r_deleting r) eqn:DR.
      { rewrite (removed me o r _ K Lo ER); [|intro Do; exact (D2 eq_refl Do)]. unfold known_inv. rewrite DR.
        split; [intros ? ? Q; discriminate|tauto]. }
      assert (Do : r_deleting o = false) by (destruct (r_deleting o); [discriminate (D1 eq_refl)|reflexivity]).
      destruct K as [Kt K]. rewrite Do, ER in K. unfold known_inv. rewrite DR.
      destruct (Z.eqb_spec (r_leader r) (r_leader o)) as [EL|NL]; cbn [negb].
      { rewrite EL, <- EI. split; [exact Kt|exact K]. }
      destruct (Z.eqb_spec (r_leader r) me) as [Em|Nm].
      { destruct (Z.eqb_spec (r_leader o) me) as [Eo|No]; [congruence|]. rewrite (led_involved me r Lr Em) in K.
        destruct K as (-> & -> & Kd). rewrite <- EI. split; [exact Kt|tauto]. }
      destruct (Z.eqb_spec (r_leader o) me) as [Eo|No].
      { destruct K as (-> & -> & Kd). cbn. assert (X : existsb (Z.eqb me) (r_replicas r) = true) by (rewrite <- ER; exact (led_involved me o Lo Eo)).
        rewrite X, <- EI. split; [intros lst x E H; exact (Kt lst x (opened_in d lst x E H) H)|]. split; [reflexivity|split; [reflexivity|apply opened_some]]. }
      assert (l = false) as -> by (destruct (existsb (Z.eqb me) (r_replicas r)); tauto).
      rewrite <- EI. split; [intros lst x E H; exact (Kt lst x (opened_in d lst x E H) H)|].
      destruct (existsb (Z.eqb me) (r_replicas r)).
      * split; [reflexivity|split; [reflexivity|apply opened_some]].
      * split; [reflexivity|right; split; [reflexivity|apply opened_some]].
    + cbn [act_of fold_left]. destruct v as [[l f] d]. destruct K as (-> & -> & Kd & Kt). cbn [v_act]. unfold known_inv.
      assert (Kt' : forall lst x, d = Some lst -> In x lst -> fst x = r_inc r).
      { intros lst x E H. destruct (Kt lst x E H) as (r' & E1 & E2). injection E1 as <-. exact E2. }
      assert (Kt2 : forall lst x, opened d = Some lst -> In x lst -> fst x = r_inc r) by (intros lst x E H; exact (Kt' lst x (opened_in d lst x E H) H)).
      destruct (r_deleting r) eqn:DR.
      { assert (d = None) as ->. { destruct d; [|reflexivity]. destruct (Kd ltac:(discriminate)) as (r' & E1 & E2 & _). injection E1 as <-. congruence. }
        unfold v_remove. destruct (r_leader r =? me); (split; [intros ? ? Q; discriminate|tauto]). }
      destruct (Z.eqb_spec (r_leader r) me) as [Em|Nm]; [split; [exact Kt2|split; [reflexivity|split; [reflexivity|apply opened_some]]]|].
      destruct (existsb (Z.eqb me) (r_replicas r)) eqn:X; cbn.
      * split; [exact Kt2|split; [reflexivity|split; [reflexivity|apply opened_some]]].
      * split; [exact Kt'|]. split; [reflexivity|]. left. split; [reflexivity|]. destruct d as [y|]; [|reflexivity].
        destruct (Kd ltac:(discriminate)) as (r' & E1 & _ & E2). injection E1 as <-. apply existsb_mem in E2. congruence.
  - destruct s as [o|]; cbn [act_of fold_left].
    + destruct v as [[l f] d]. cbn [v_act]. rewrite (removed me o o _ K (Ls o eq_refl) eq_refl (fun _ => eq_refl)).
      unfold unknown_inv. split; [reflexivity|split; [reflexivity|split; [intro C; congruence|intros ? ? Q; discriminate]]].
    + exact K.
Qed.

Lemma update_parts me e s k : is_message e = true -> bad_of e = [] -> distinct (s_truth s) ->
  known (sstep me s e) k = (if delivered (s_truth s) e k then actual s k else known s k) /\
  view_of (s_node (sstep me s e)) k =
    (if delivered (s_truth s) e k then fold_left (v_act me) (act_of k (known s k) (actual s k)) (view_of (s_node s) k) else view_of (s_node s) k) /\
  (In k (n_out (s_node (sstep me s e))) -> In k (n_out (s_node s)) \/
     delivered (s_truth s) e k = true /\
     exists a, In a (act_of k (known s k) (actual s k)) /\ match a with AAdd _ r => r_deleting r = true | AMod _ r _ => r_deleting r = true | ADel _ _ => True end).
Proof.
  intros M B D. rewrite (sstep_message me s e M), B. unfold known, actual, on_node. cbn [s_node s_truth].
  destruct (message_key (s_truth s) (n_store (s_node s)) e k D) as [G A].
  destruct (message_for (s_truth s) (n_store (s_node s)) e) as [st acts]. cbn [fst snd] in G, A.
  split; [rewrite acts_store; exact G|]. split.
  - rewrite acts_view, A. change (view_of (set_store (s_node s) st) k) with (view_of (s_node s) k).
    destruct (delivered (s_truth s) e k); reflexivity.
  - intro H. destruct (acts_out me [] acts _ k H) as [C|(a & C & Q)]; [left; exact C|]. right. rewrite A in C.
    destruct (delivered (s_truth s) e k); [|destruct C]. split; [reflexivity|]. exists a. split; [exact C|exact Q].
Qed.

Lemma update_distinct me e s : is_message e = true -> distinct (n_store (s_node s)) -> distinct (n_store (s_node (sstep me s e))).
Proof.
  intros M D. rewrite (sstep_message me s e M). unfold on_node. cbn [s_node].
  pose proof (message_distinct (s_truth s) (n_store (s_node s)) e D) as X.
  destruct (message_for (s_truth s) (n_store (s_node s)) e) as [st acts]. rewrite acts_store. exact X.
Qed.

Lemma message_inv me e s : is_message e = true -> bad_of e = [] -> inv me s -> inv me (sstep me s e).
Proof.
  intros M B (D1 & D2 & K).
  assert (T : s_truth (sstep me s e) = s_truth s) by (rewrite (sstep_message me s e M); reflexivity).
  split; [rewrite T; exact D1|]. split; [exact (update_distinct me e s M D2)|]. intro k.
  destruct (update_parts me e s k M B D1) as (E1 & E2 & E3). rewrite E1, E2.
  assert (E0 : actual (sstep me s e) k = actual s k) by (unfold actual; rewrite T; reflexivity). rewrite E0.
  destruct (delivered (s_truth s) e k) eqn:DL.
  - apply (deliver_key me k (actual s k) (known s k) _ (In k (n_out (s_node s))) _ (K k)).
    intro H. destruct (E3 H) as [C|[_ C]]; [left; exact C|right; exact C].
  - destruct (K k) as (A1 & A2 & A3 & A4 & A5). split; [exact A1|]. split; [exact A2|]. split; [exact A3|]. split; [|exact A5].
    intros H. destruct (E3 H) as [C|[C _]]; [exact (A4 C)|discriminate].
Qed.

(** steps of the controller *)
Lemma truth_inv me s t' : inv me s -> distinct t' ->
  (forall k, get t' k = actual s k \/ kinv me (get t' k) (known s k) (view_of (s_node s) k) (In k (n_out (s_node s)))) ->
  forall nx, inv me (mkS t' nx (s_node s)).
Proof.
  intros (D1 & D2 & K) D H nx. split; [exact D|]. split; [exact D2|]. intro k. unfold actual, known. cbn [s_truth s_node].
  destruct (H k) as [E|E]; [rewrite E; exact (K k)|exact E].
Qed.

Lemma on_truth_inv me s k f : inv me s ->
  (forall r, actual s k = Some r -> kinv me (Some (f r)) (known s k) (view_of (s_node s) k) (In k (n_out (s_node s)))) ->
  inv me (on_truth s k f).
Proof.
  intros H F. unfold on_truth. destruct (get (s_truth s) k) as [r|] eqn:G; [|exact H].
  apply truth_inv; [exact H|apply distinct_put; apply H|]. intro j. rewrite get_put.
  destruct (Z.eqb_spec j k) as [->|N]; [right; exact (F r G)|left; reflexivity].
Qed.

(** a partition's description changes in a way that the node may hear later *)
Lemma kinv_change me r r' s v out : kinv me (Some r) s v out -> led r' ->
  r_inc r' = r_inc r -> r_replicas r' = r_replicas r -> r_deleting r' = r_deleting r -> (r_deleting r = true -> r_leader r' = r_leader r) ->
  kinv me (Some r') s v out.
Proof.
  intros (A1 & A2 & A3 & A4 & A5) L E1 E2 E3 E4. split; [intros x X; injection X as <-; exact L|]. split; [exact A2|]. split.
  { intros o x X Y. injection Y as <-. destruct (A3 o r X eq_refl) as (B1 & B2 & B3 & B4). unfold follows_on.
    rewrite E1, E2, E3. split; [exact B1|]. split; [exact B2|]. split; [exact B3|]. intros D1 D2. rewrite (E4 D1). exact (B4 D1 D2). }
  split. { intros O x X. injection X as <-. rewrite E3. exact (A4 O r eq_refl). }
  destruct s as [o|]; [exact A5|]. destruct v as [[l f] d]. destruct A5 as (B1 & B2 & B3 & B4). split; [exact B1|]. split; [exact B2|]. split.
  - intro N. destruct (B3 N) as (x & X & Y & Z0). injection X as <-. exists r'. split; [reflexivity|]. split; [rewrite E3; exact Y|rewrite E2; exact Z0].
  - intros lst x E I. destruct (B4 lst x E I) as (y & X & Y). injection X as <-. exists r'. split; [reflexivity|]. rewrite E1. exact Y.
Qed.

Lemma step_inv me s e : inv me s -> orderly me s e -> inv me (sstep me s e).
Proof.
  intros H O. destruct e as [k l rs c|k l|k c|k|k| |bad|ks bad| |k x]; cbn [orderly] in O.
  - cbn [sstep]. destruct O as (O1 & O2 & O3). destruct (get (s_truth s) k) as [r|] eqn:G; [exact H|].
    apply truth_inv; [exact H|apply distinct_put; apply H|]. intro j. rewrite get_put.
    destruct (Z.eqb_spec j k) as [->|N]; [|left; reflexivity]. right. rewrite O2.
    destruct H as (_ & _ & K). pose proof (K k) as (_ & _ & _ & _ & A5). rewrite O2 in A5. unfold actual in A5. rewrite G in A5.
    split; [intros r E; injection E as <-; exact O1|]. split; [intros ? E; discriminate|]. split; [intros ? ? E; discriminate|].
    split; [intro C; contradiction|]. destruct (view_of (s_node s) k) as [[lv f] d]. destruct A5 as (B1 & B2 & B3 & B4).
    split; [exact B1|]. split; [exact B2|]. split.
    + intro N. destruct (B3 N) as (y & Y & _). discriminate.
    + intros lst x E I. destruct (B4 lst x E I) as (y & Y & _). discriminate.
  - cbn [sstep]. apply on_truth_inv; [exact H|]. intros r G. destruct (O r G) as (O1 & O2). destruct H as (_ & _ & K).
    pose proof (K k) as Kk. rewrite G in Kk. apply (kinv_change me r _ _ _ _ Kk); try reflexivity; [exact O1|congruence].
  - cbn [sstep]. apply on_truth_inv; [exact H|]. intros r G. destruct H as (_ & _ & K). pose proof (K k) as Kk. rewrite G in Kk.
    apply (kinv_change me r _ _ _ _ Kk); try reflexivity. exact (proj1 Kk r eq_refl).
  - cbn [sstep]. apply on_truth_inv; [exact H|]. intros r G. destruct (O r G) as (o & O1 & O2). destruct H as (_ & _ & K).
    pose proof (K k) as (A1 & A2 & A3 & A4 & A5). rewrite G, O1 in A3. destruct (A3 o r eq_refl eq_refl) as (B1 & B2 & B3 & B4).
    split; [intros y Y; injection Y as <-; exact (A1 r G)|]. split; [exact A2|]. split.
    { intros o' y Y1 Y2. rewrite O1 in Y1. injection Y1 as <-. injection Y2 as <-. unfold follows_on. cbn. tauto. }
    split; [intros _ y Y; injection Y as <-; reflexivity|]. rewrite O1 in *. exact A5.
  - cbn [sstep]. apply truth_inv; [exact H|apply distinct_del; apply H|]. intro j. rewrite get_del.
    destruct (Z.eqb_spec j k) as [->|N]; [|left; reflexivity]. right. destruct H as (_ & _ & K). pose proof (K k) as (A1 & A2 & A3 & A4 & A5).
    split; [intros ? E; discriminate|]. split; [exact A2|]. split; [intros ? ? _ E; discriminate|]. split; [intros _ ? E; discriminate|].
    destruct (known s k) as [o|]; [exact A5|]. destruct O as [O|O]; [congruence|]. unfold view_of in *. rewrite O in *.
    destruct A5 as (B1 & B2 & _ & _). split; [exact B1|]. split; [exact B2|]. split; [congruence|intros ? ? E; discriminate].
  - cbn [sstep]. unfold confirmed. destruct (n_out (s_node s)) as [|k out] eqn:Q; [exact H|]. destruct H as (D1 & D2 & K).
    set (t' := match get (s_truth s) k with Some _ => del (s_truth s) k | None => s_truth s end).
    assert (Gt : forall j, get t' j = if j =? k then None else get (s_truth s) j).
    { intro j. unfold t'. destruct (get (s_truth s) k) eqn:G; [apply get_del|]. destruct (Z.eqb_spec j k) as [->|]; [exact G|reflexivity]. }
    split. { unfold t'. cbn [s_truth]. destruct (get (s_truth s) k); [apply distinct_del|]; exact D1. }
    split; [exact D2|]. intro j. unfold actual, known. cbn [s_truth s_node set_out n_store n_out]. rewrite Gt.
    change (view_of (set_out (s_node s) out) j) with (view_of (s_node s) j).
    pose proof (K j) as (A1 & A2 & A3 & A4 & A5). fold (known s j) in *.
    assert (W : In j out -> In j (n_out (s_node s))) by (intro I; rewrite Q; right; exact I).
    destruct (Z.eqb_spec j k) as [->|N].
    + split; [intros ? E; discriminate|]. split; [exact A2|]. split; [intros ? ? _ E; discriminate|]. split; [intros _ ? E; discriminate|].
      change (get (n_store (s_node s)) k) with (known s k). destruct (known s k) as [o|]; [exact A5|].
      assert (I : In k (n_out (s_node s))) by (rewrite Q; left; reflexivity).
      destruct (view_of (s_node s) k) as [[lv f] d]. destruct A5 as (B1 & B2 & B3 & B4). split; [exact B1|]. split; [exact B2|].
      assert (d = None) as ->. { destruct d as [y|]; [|reflexivity]. destruct (B3 ltac:(discriminate)) as (r & R1 & R2 & _). pose proof (A4 I r R1). congruence. }
      split; [congruence|intros ? ? E; discriminate].
    + split; [exact A1|]. split; [exact A2|]. split; [exact A3|]. split; [intro I; exact (A4 (W I))|exact A5].
  - subst bad. apply message_inv; [reflexivity|reflexivity|exact H].
  - subst bad. apply message_inv; [reflexivity|reflexivity|exact H].
  - cbn [sstep]. destruct H as (D1 & D2 & K). split; [exact D1|]. split; [constructor|]. intro k. pose proof (K k) as (A1 & A2 & A3 & A4 & A5).
    unfold on_node, known, actual. cbn [s_node s_truth restarted n_store get n_out]. fold (actual s k).
    split; [exact A1|]. split; [intros ? E; discriminate|]. split; [intros ? ? E; discriminate|]. split; [exact A4|].
    unfold view_of in *. cbn [n_lead n_follow get n_disk]. split; [reflexivity|]. split; [reflexivity|]. split; [exact (O k)|].
    intros lst x E I. change (n_disk (s_node s) k = Some lst) in E. destruct (known s k) as [o|] eqn:S.
    + destruct (O k) as (r & R1 & R2 & R3); [rewrite E; discriminate|]. exists r. split; [exact R1|].
      destruct A5 as [T _]. rewrite (T lst x E I). apply (A3 o r eq_refl R1).
    + destruct A5 as (_ & _ & _ & T). exact (T lst x E I).
  - cbn [sstep]. destruct H as (D1 & D2 & K). unfold on_node, written.
    destruct (n_lead (s_node s) k || _) eqn:W; [|split; [exact D1|split; [exact D2|exact K]]].
    destruct (n_disk (s_node s) k) as [lst|] eqn:E; [|split; [exact D1|split; [exact D2|exact K]]].
    split; [exact D1|]. split; [exact D2|]. intro j. pose proof (K j) as (A1 & A2 & A3 & A4 & A5).
    change (actual _ j) with (actual s j). change (known _ j) with (known s j).
    unfold known, actual. cbn [s_node set_disk n_store n_out]. fold (known s j) (actual s j).
    split; [exact A1|]. split; [exact A2|]. split; [exact A3|]. split; [exact A4|].
    unfold view_of in *. cbn [set_disk n_lead n_follow n_disk]. unfold upd. destruct (Z.eqb_spec j k) as [->|N]; [|exact A5].
    rewrite E in A5. fold (known s k). destruct (known s k) as [o|].
    + destruct A5 as [T A5]. split.
      * intros l y Y I. injection Y as <-. apply in_app_or in I. destruct I as [I|[<-|[]]]; [exact (T lst y eq_refl I)|reflexivity].
      * destruct (r_deleting o); [destruct A5 as (_ & _ & C); discriminate|].
        destruct (r_leader o =? me); [destruct A5 as (B1 & B2 & _); split; [exact B1|split; [exact B2|discriminate]]|].
        destruct (existsb (Z.eqb me) (r_replicas o)); [destruct A5 as (B1 & B2 & _); split; [exact B1|split; [exact B2|discriminate]]|].
        destruct A5 as (B1 & [[_ C]|[B2 _]]); [discriminate|]. split; [exact B1|]. right. split; [exact B2|discriminate].
    + destruct A5 as (B1 & B2 & _). rewrite B1, B2 in W. discriminate.
Qed.

Lemma inv0 me : inv me sys0.
Proof.
  split; [constructor|]. split; [constructor|]. intro k. unfold actual, known. cbn.
  split; [intros ? E; discriminate|]. split; [intros ? E; discriminate|]. split; [intros ? ? E; discriminate|].
  split; [intros []|]. split; [reflexivity|]. split; [reflexivity|]. split; [intro C; elim C; reflexivity|intros ? ? E; discriminate].
Qed.

Lemma run_inv me es s : inv me s -> orderly_run me s es -> inv me (srun me s es).
Proof.
  revert s. induction es as [|e es IH]; intros s H O; [exact H|]. destruct O as [O1 O2]. exact (IH _ (step_inv me s e H O1) O2).
Qed.

(** ** Claims *)

Section Orderly.
Variables (me : Z) (es : list event).
Hypothesis O : orderly_run me sys0 es.
Let s := srun me sys0 es.

Lemma s_inv : inv me s.
Proof. exact (run_inv me es sys0 (inv0 me) O). Qed.

Lemma roles_known k : (forall r, known s k = Some r -> involved me r) -> plays (s_node s) k (assigned me (known s k)).
Proof.
  intro I. destruct s_inv as (_ & _ & K). destruct (K k) as (_ & _ & _ & _ & A). destruct (known s k) as [o|] eqn:S; unfold view_of in A; cbn [assigned].
  - pose proof (I o eq_refl) as X. apply existsb_mem in X. destruct A as [_ A]. rewrite X in *. destruct (r_deleting o); [split; tauto|].
    destruct (r_leader o =? me); (split; tauto).
  - destruct A as (A & B & _). split; assumption.
Qed.

Lemma roles_others k r : known s k = Some r -> ~ involved me r ->
  n_lead (s_node s) k = false /\ forall l, get (n_follow (s_node s)) k = Some l -> l = r_leader r.
Proof.
  intros S I. destruct s_inv as (_ & _ & K). destruct (K k) as (_ & L & _ & _ & A). rewrite S in A, L. unfold view_of in A. destruct A as [_ A].
  assert (X : existsb (Z.eqb me) (r_replicas r) = false) by (destruct (existsb (Z.eqb me) (r_replicas r)) eqn:E; [apply existsb_mem in E; contradiction|reflexivity]).
  destruct (r_deleting r). { destruct A as (A & B & _). split; [exact A|]. intros l H. congruence. }
  destruct (Z.eqb_spec (r_leader r) me) as [E|_]; [pose proof (led_involved me r (L r eq_refl) E); congruence|]. rewrite X in A.
  destruct A as (A & B). split; [exact A|]. intros l H. destruct B as [[B _]|[B _]]; congruence.
Qed.

Lemma records_own k r lst x : actual s k = Some r -> n_disk (s_node s) k = Some lst -> In x lst -> fst x = r_inc r.
Proof.
  intros T E I. destruct s_inv as (_ & _ & K). destruct (K k) as (_ & _ & F & _ & A). unfold view_of in A. destruct (known s k) as [o|].
  - destruct A as [A _]. rewrite (A lst x E I). apply (F o r eq_refl T).
  - destruct A as (_ & _ & _ & A). destruct (A lst x E I) as (y & Y & Z0). congruence.
Qed.

Lemma files_gone k : known s k = None -> (forall r, actual s k = Some r -> r_deleting r = true) -> n_disk (s_node s) k = None.
Proof.
  intros S T. destruct s_inv as (_ & _ & K). destruct (K k) as (_ & _ & _ & _ & A). rewrite S in A. unfold view_of in A.
  destruct A as (_ & _ & A & _). destruct (n_disk (s_node s) k) as [d|]; [|reflexivity].
  destruct (A ltac:(discriminate)) as (r & R1 & R2 & _). pose proof (T r R1). congruence.
Qed.

Lemma files_gone_marked k r : known s k = Some r -> r_deleting r = true -> n_disk (s_node s) k = None.
Proof.
  intros S D. destruct s_inv as (_ & _ & K). destruct (K k) as (_ & _ & _ & _ & A). rewrite S in A. unfold view_of in A.
  destruct A as (_ & A). rewrite D in A. apply A.
Qed.

Lemma known_confirm k r : In k (n_out (s_node s)) -> actual s k = Some r -> r_deleting r = true.
Proof. intros I T. destruct s_inv as (_ & _ & K). destruct (K k) as (_ & _ & _ & A & _). exact (A I r T). Qed.

Lemma confirm_deletes k r : actual s k = Some r -> actual (sstep me s Confirmed) k = None -> r_deleting r = true.
Proof.
  intros T N. cbn [sstep] in N. unfold confirmed in N. destruct (n_out (s_node s)) as [|j out] eqn:Q; [congruence|].
  unfold actual in N. cbn [s_truth] in N. destruct (Z.eqb_spec k j) as [->|M].
  - apply (known_confirm j r); [rewrite Q; left; reflexivity|exact T].
  - unfold actual in T. destruct (get (s_truth s) j); [rewrite get_del in N; destruct (Z.eqb_spec k j); congruence|congruence].
Qed.

(** the node knows what a message carried *)
Lemma told_known ks k : In k ks -> known (sstep me s (Told ks [])) k = actual s k.
Proof.
  intro I. destruct s_inv as (D & _ & _). destruct (update_parts me (Told ks []) s k eq_refl eq_refl D) as (E & _ & _).
  rewrite E. cbn [delivered]. rewrite (proj2 (existsb_mem k ks) I). reflexivity.
Qed.

Lemma sync_known k : s_truth s <> [] -> known (sstep me s (Sync [])) k = actual s k.
Proof.
  intro N. destruct s_inv as (D & _ & _). destruct (update_parts me (Sync []) s k eq_refl eq_refl D) as (E & _ & _).
  rewrite E. cbn [delivered]. destruct (s_truth s); [congruence|reflexivity].
Qed.
End Orderly.

Lemma orderly_app me es : forall e s, orderly_run me s es -> orderly me (srun me s es) e -> orderly_run me s (es ++ [e]).
Proof.
  induction es as [|x es IH]; intros e s O1 O2; cbn in *; [tauto|]. destruct O1 as [A B]. split; [exact A|exact (IH e _ B O2)].
Qed.

Lemma srun_app me es e s : srun me s (es ++ [e]) = sstep me (srun me s es) e.
Proof. unfold srun. rewrite fold_left_app. reflexivity. Qed.

Lemma srun_one me s e : srun me s [e] = sstep me s e.
Proof. reflexivity. Qed.

(** after a message the node's role is the one of the metadata *)
Lemma told_roles me es ks k : orderly_run me sys0 es -> In k ks ->
  let s := srun me sys0 es in let s' := sstep me s (Told ks []) in
  (forall r, actual s k = Some r -> involved me r) ->
  plays (s_node s') k (assigned me (actual s k)) /\
  (assigned me (actual s k) = Nothing -> n_disk (s_node s') k = None).
Proof.
  intros O I s s' Inv. assert (O' : orderly_run me sys0 (es ++ [Told ks []])) by (apply orderly_app; [exact O|reflexivity]).
  pose proof (told_known me es O ks k I) as E. fold s in E. fold s' in E.
  assert (R : srun me sys0 (es ++ [Told ks []]) = s') by (rewrite srun_app; reflexivity).
  assert (Inv' : forall r, known s' k = Some r -> involved me r) by (intros r; rewrite E; exact (Inv r)).
  split.
  - pose proof (roles_known me _ O' k) as P. rewrite R, E in P. apply P. exact Inv.
  - intro N. destruct (actual s k) as [r|] eqn:T.
    + pose proof (files_gone_marked me _ O' k r) as P. rewrite R in P. apply P; [exact E|].
      pose proof (Inv r eq_refl) as X. apply existsb_mem in X. unfold assigned in N. rewrite X in N.
      destruct (r_deleting r); [reflexivity|]. destruct (r_leader r =? me); discriminate.
    + pose proof (files_gone me _ O' k) as P. rewrite R in P. apply P; [exact E|]. intros r Q.
      assert (A : actual s' k = actual s k) by reflexivity. rewrite A, T in Q. discriminate.
Qed.

Lemma sync_roles me es k : orderly_run me sys0 es ->
  let s := srun me sys0 es in let s' := sstep me s (Sync []) in
  s_truth s <> [] -> (forall r, actual s k = Some r -> involved me r) ->
  plays (s_node s') k (assigned me (actual s k)) /\
  (assigned me (actual s k) = Nothing -> n_disk (s_node s') k = None).
Proof.
  intros O s s' I Inv. assert (O' : orderly_run me sys0 (es ++ [Sync []])) by (apply orderly_app; [exact O|reflexivity]).
  pose proof (sync_known me es O k I) as E. fold s in E. fold s' in E.
  assert (R : srun me sys0 (es ++ [Sync []]) = s') by (rewrite srun_app; reflexivity).
  split.
  - pose proof (roles_known me _ O' k) as P. rewrite R, E in P. apply P. exact Inv.
  - intro N. destruct (actual s k) as [r|] eqn:T.
    + pose proof (files_gone_marked me _ O' k r) as P. rewrite R in P. apply P; [exact E|].
      pose proof (Inv r eq_refl) as X. apply existsb_mem in X. unfold assigned in N. rewrite X in N.
      destruct (r_deleting r); [reflexivity|]. destruct (r_leader r =? me); discriminate.
    + pose proof (files_gone me _ O' k) as P. rewrite R in P. apply P; [exact E|]. intros r Q.
      assert (A : actual s' k = actual s k) by reflexivity. rewrite A, T in Q. discriminate.
Qed.

(** ** Start again *)

Lemma restart_roles me s k : distinct (s_truth s) -> s_truth s <> [] ->
  let s' := sstep me (sstep me s Stop) (Sync []) in
  plays (s_node s') k (assigned me (actual s k)) /\
  (assigned me (actual s k) <> Nothing -> n_disk (s_node s') k = opened (n_disk (s_node s) k)) /\
  (assigned me (actual s k) = Nothing -> n_disk (s_node s') k = n_disk (s_node s) k).
Proof.
  intros D N s'. destruct (update_parts me (Sync []) (sstep me s Stop) k eq_refl eq_refl D) as (_ & V & _). fold s' in V.
  change (actual (sstep me s Stop) k) with (actual s k) in V. change (s_truth (sstep me s Stop)) with (s_truth s) in V.
  change (known (sstep me s Stop) k) with (@None rep) in V.
  change (view_of (s_node (sstep me s Stop)) k) with (false, @None Z, n_disk (s_node s) k) in V.
  assert (DL : delivered (s_truth s) (Sync []) k = true) by (cbn; destruct (s_truth s); [congruence|reflexivity]). rewrite DL in V.
  unfold view_of in V. destruct (actual s k) as [r|]; cbn [act_of fold_left v_act assigned] in *.
  - destruct (r_deleting r).
    { unfold v_remove in V. destruct (r_leader r =? me); injection V as V1 V2 V3; (split; [split; assumption|]); (split; [congruence|intros _; exact V3]). }
    destruct (r_leader r =? me).
    { injection V as V1 V2 V3. split; [split; assumption|]. split; [intros _; exact V3|discriminate]. }
    destruct (existsb (Z.eqb me) (r_replicas r)); cbn in V; injection V as V1 V2 V3; (split; [split; assumption|]).
    + split; [intros _; exact V3|discriminate].
    + split; [congruence|intros _; exact V3].
  - injection V as V1 V2 V3. split; [split; assumption|]. split; [congruence|intros _; exact V3].
Qed.

Lemma distinct_step me s e : distinct (s_truth s) -> distinct (s_truth (sstep me s e)).
Proof.
  intro D. assert (T : forall k f, distinct (s_truth (on_truth s k f))) by (intros k f; unfold on_truth; destruct (get (s_truth s) k); [apply distinct_put|]; exact D).
  destruct e; cbn [sstep]; try exact D; try apply T.
  - destruct (get (s_truth s) k); [exact D|apply distinct_put; exact D].
  - apply distinct_del. exact D.
  - unfold confirmed. destruct (n_out (s_node s)) as [|k o]; [exact D|]. cbn [s_truth]. destruct (get (s_truth s) k); [apply distinct_del|]; exact D.
Qed.

Lemma distinct_run me es s : distinct (s_truth s) -> distinct (s_truth (srun me s es)).
Proof. revert s. induction es as [|e es IH]; intros s D; [exact D|]. exact (IH _ (distinct_step me s e D)). Qed.

Lemma restart_roles_run me es k : let s := srun me sys0 es in s_truth s <> [] ->
  let s' := sstep me (sstep me s Stop) (Sync []) in
  plays (s_node s') k (assigned me (actual s k)) /\
  (assigned me (actual s k) <> Nothing -> n_disk (s_node s') k = opened (n_disk (s_node s) k)) /\
  (assigned me (actual s k) = Nothing -> n_disk (s_node s') k = n_disk (s_node s) k).
Proof. intros s N. apply restart_roles; [apply distinct_run; constructor|exact N]. Qed.

(** ** Once the node knows a partition as it is, messages change nothing *)

Lemma settled me s e k : is_message e = true -> bad_of e = [] -> distinct (s_truth s) -> known s k = actual s k ->
  known (sstep me s e) k = actual (sstep me s e) k /\ view_of (s_node (sstep me s e)) k = view_of (s_node s) k /\
  actual (sstep me s e) k = actual s k.
Proof.
  intros M B D E. destruct (update_parts me e s k M B D) as (K & V & _).
  assert (T : actual (sstep me s e) k = actual s k) by (rewrite (sstep_message me s e M); reflexivity).
  rewrite K, V, T, E, act_of_same. destruct (delivered (s_truth s) e k); (split; [reflexivity|split; reflexivity]).
Qed.

Lemma settled_run me ms s k : (forall e, In e ms -> is_message e = true /\ bad_of e = []) -> distinct (s_truth s) -> known s k = actual s k ->
  view_of (s_node (srun me s ms)) k = view_of (s_node s) k /\ actual (srun me s ms) k = actual s k.
Proof.
  revert s. induction ms as [|e ms IH]; intros s H D E; [split; reflexivity|].
  destruct (H e (or_introl eq_refl)) as [M B]. destruct (settled me s e k M B D E) as (E1 & E2 & E3).
  destruct (IH (sstep me s e) (fun x X => H x (or_intror X)) (distinct_step me s e D) E1) as (F1 & F2).
  cbn [srun fold_left] in *. rewrite <- E2, <- E3. split; [exact F1|exact F2].
Qed.

(** ** Connections to leaders *)

Definition served (n : node) : Prop := forall k l, get (n_follow n) k = Some l -> n_groups n l = true.

Lemma count_zero f l k : leader_count f l = 0 -> get f k = Some l -> False.
Proof.
  unfold leader_count, zlen. intros H G. apply get_in in G.
  assert (I : In (k, l) (filter (fun e => snd e =? l) f)) by (apply filter_In; split; [exact G|apply Z.eqb_refl]).
  destruct (filter (fun e => snd e =? l) f); [destruct I|cbn in H; lia].
Qed.

Lemma unfollow_served n p k : served n -> served (fst (unfollow n p k)).
Proof.
  intros H j l. unfold unfollow. destruct (get (n_follow n) k) as [x|]; [|exact (H j l)]. cbn [fst].
  destruct (Z.eqb_spec (leader_count (del (n_follow n) k) p) 0) as [C|C]; cbn; intro G.
  - unfold upd. destruct (Z.eqb_spec l p) as [->|N]; [elim (count_zero _ _ _ C G)|].
    rewrite get_del in G. destruct (j =? k); [discriminate|exact (H j l G)].
  - rewrite get_del in G. destruct (j =? k); [discriminate|exact (H j l G)].
Qed.

Lemma add_follower_served bad n k r : served n -> served (add_follower bad n k r).
Proof.
  intros H. unfold add_follower. destruct (get (n_follow n) k); [exact H|]. destruct (existsb (Z.eqb k) bad); [exact H|].
  intros j l. cbn [set_group set_disk set_follow n_follow n_groups]. rewrite get_put. unfold upd. destruct (j =? k); intro G.
  - injection G as <-. rewrite Z.eqb_refl. reflexivity.
  - destruct (l =? r_leader r); [reflexivity|exact (H j l G)].
Qed.

Lemma remove_served me n k r : served n -> served (remove_replica me n k r).
Proof.
  intro H. unfold remove_replica. destruct (r_leader r =? me); [destruct (n_lead n k); exact H|].
  pose proof (unfollow_served n (r_leader r) k H) as U. destruct (unfollow n (r_leader r) k) as [n' b]. destruct b; exact U.
Qed.

Lemma act_served me bad n a : served n -> served (act me bad n a).
Proof.
  intro H. destruct a as [k r|k new old|k r]; cbn [act].
  - destruct (r_deleting r); [apply remove_served; exact H|]. destruct (r_leader r =? me).
    + unfold add_leader. destruct (existsb (Z.eqb k) bad); exact H.
    + destruct (existsb (Z.eqb me) (r_replicas r)); [apply add_follower_served|]; exact H.
  - destruct (r_deleting new); [apply remove_served; exact H|]. destruct (negb (r_leader new =? r_leader old)); [|exact H].
    destruct (r_leader new =? me).
    + unfold promote. pose proof (unfollow_served n (r_leader old) k H) as U. destruct (unfollow n (r_leader old) k) as [n' b].
      destruct b; [destruct (existsb (Z.eqb k) bad)|]; exact U.
    + destruct (r_leader old =? me).
      * unfold demote. destruct (n_lead n k); [|exact H]. apply add_follower_served. exact H.
      * apply add_follower_served. apply unfollow_served. exact H.
  - apply remove_served. exact H.
Qed.

Lemma acts_served me bad acts n : served n -> served (fold_left (act me bad) acts n).
Proof. revert n. induction acts as [|a acts IH]; intros n H; [exact H|]. exact (IH _ (act_served me bad n a H)). Qed.

Lemma step_served me s e : served (s_node s) -> served (s_node (sstep me s e)).
Proof.
  intro H. assert (T : forall k f, served (s_node (on_truth s k f))) by (intros k f; unfold on_truth; destruct (get (s_truth s) k); exact H).
  destruct (is_message e) eqn:M.
  - rewrite (sstep_message me s e M). cbn [on_node s_node]. destruct (message_for _ _ _) as [st acts]. apply acts_served. exact H.
  - destruct e; try discriminate M; cbn [sstep]; try exact H; try apply T.
    + destruct (get (s_truth s) k); exact H.
    + unfold confirmed. destruct (n_out (s_node s)); exact H.
    + intros k l G. discriminate.
    + cbn [on_node s_node]. unfold written. destruct (_ || _); [|exact H]. destruct (n_disk (s_node s) k); exact H.
Qed.

Lemma run_served me es k l : get (n_follow (s_node (srun me sys0 es))) k = Some l -> n_groups (s_node (srun me sys0 es)) l = true.
Proof.
  assert (G : forall es s, served (s_node s) -> served (s_node (srun me s es))).
  { intro x. induction x as [|e x IH]; intros s H; [exact H|]. exact (IH _ (step_served me s e H)). }
  apply (G es sys0). intros j m X. discriminate.
Qed.

(** in orderly histories there is no connection without a followed replica *)

Definition needed (n : node) : Prop := distinct (n_follow n) /\ forall l, n_groups n l = true -> exists k, get (n_follow n) k = Some l.

Definition fits_action (n : node) (a : action) : Prop :=
  forall l, get (n_follow n) (a_key a) = Some l ->
  match a with
  | AAdd _ r => r_deleting r = false
  | AMod _ new old => l = r_leader old /\ (r_deleting new = true -> l = r_leader new)
  | ADel _ r => l = r_leader r
  end.

Lemma count_pos f l : leader_count f l <> 0 -> distinct f -> exists k, get f k = Some l.
Proof.
  unfold leader_count, zlen. intros H D. destruct (filter (fun e => snd e =? l) f) as [|[k m] r] eqn:F; [cbn in H; lia|].
  assert (I : In (k, m) (filter (fun e => snd e =? l) f)) by (rewrite F; left; reflexivity).
  apply filter_In in I. destruct I as [I E]. cbn in E. apply Z.eqb_eq in E. subst m. exists k. apply in_get; assumption.
Qed.

Lemma unfollow_needed n p k : needed n -> (forall l, get (n_follow n) k = Some l -> l = p) -> needed (fst (unfollow n p k)).
Proof.
  intros [D H] E. unfold unfollow. destruct (get (n_follow n) k) as [x|] eqn:G; [|split; [exact D|exact H]]. pose proof (E x eq_refl) as ->. cbn [fst].
  pose proof (distinct_del (n_follow n) k D) as D'.
  assert (K : forall l, n_groups n l = true -> l <> p -> exists j, get (del (n_follow n) k) j = Some l).
  { intros l Hl N. destruct (H l Hl) as (j & J). exists j. rewrite get_del. destruct (Z.eqb_spec j k) as [->|]; [congruence|exact J]. }
  destruct (Z.eqb_spec (leader_count (del (n_follow n) k) p) 0) as [C|C].
  - split; [exact D'|]. cbn. intros l. unfold upd. destruct (Z.eqb_spec l p) as [->|N]; [discriminate|]. intro Hl. exact (K l Hl N).
  - split; [exact D'|]. cbn. intros l Hl. destruct (Z.eq_dec l p) as [->|N]; [apply count_pos; assumption|exact (K l Hl N)].
Qed.

Lemma add_follower_needed n k r : needed n -> needed (add_follower [] n k r).
Proof.
  intros [D H]. unfold add_follower. destruct (get (n_follow n) k) as [x|] eqn:G; [split; assumption|]. cbn [existsb].
  split; [apply distinct_put; exact D|]. cbn [set_group set_disk set_follow n_follow n_groups]. intros l. unfold upd.
  destruct (Z.eqb_spec l (r_leader r)) as [->|N]; intro Hl.
  - exists k. rewrite get_put, Z.eqb_refl. reflexivity.
  - destruct (H l Hl) as (j & J). exists j. rewrite get_put. destruct (Z.eqb_spec j k) as [->|]; [congruence|exact J].
Qed.

Lemma remove_needed me n k r : needed n -> (forall l, get (n_follow n) k = Some l -> l = r_leader r) -> needed (remove_replica me n k r).
Proof.
  intros H E. unfold remove_replica. destruct (r_leader r =? me); [destruct (n_lead n k); exact H|].
  pose proof (unfollow_needed n (r_leader r) k H E) as U. destruct (unfollow n (r_leader r) k) as [n' b]. destruct b; exact U.
Qed.

Lemma act_needed me n a : needed n -> fits_action n a -> needed (act me [] n a).
Proof.
  intros H F. unfold fits_action in F. destruct a as [k r|k new old|k r]; cbn [act a_key] in *.
  - destruct (r_deleting r). { apply remove_needed; [exact H|]. intros l L. discriminate (F l L). }
    destruct (r_leader r =? me); [exact H|]. destruct (existsb (Z.eqb me) (r_replicas r)); [apply add_follower_needed|]; exact H.
  - destruct (r_deleting new) eqn:DN. { apply remove_needed; [exact H|]. intros l L. exact (proj2 (F l L) eq_refl). }
    destruct (negb (r_leader new =? r_leader old)); [|exact H].
    assert (F' : forall l, get (n_follow n) k = Some l -> l = r_leader old) by (intros l L; exact (proj1 (F l L))).
    destruct (r_leader new =? me).
    + unfold promote. pose proof (unfollow_needed n (r_leader old) k H F') as U. destruct (unfollow n (r_leader old) k) as [n' b]. destruct b; exact U.
    + destruct (r_leader old =? me).
      * unfold demote. destruct (n_lead n k); [|exact H]. apply add_follower_needed. exact H.
      * apply add_follower_needed. apply unfollow_needed; assumption.
  - apply remove_needed; [exact H|exact F].
Qed.

Lemma acts_needed me acts n : needed n -> (forall a, In a acts -> fits_action n a) -> (forall k, (length (of_key k acts) <= 1)%nat) ->
  needed (fold_left (act me []) acts n).
Proof.
  revert n. induction acts as [|a acts IH]; intros n H F O; [exact H|]. cbn [fold_left]. apply IH.
  - apply act_needed; [exact H|]. apply F. left. reflexivity.
  - intros b B. pose proof (F b (or_intror B)) as X. assert (N : a_key b <> a_key a).
    { intro E. pose proof (O (a_key a)) as L. cbn [of_key filter] in L. rewrite Z.eqb_refl in L. cbn [length] in L.
      assert (I : In b (of_key (a_key a) acts)) by (apply filter_In; split; [exact B|apply Z.eqb_eq; symmetry; exact E]).
      unfold of_key in I. destruct (filter (fun a0 => a_key a =? a_key a0) acts); [destruct I|cbn in L; lia]. }
    unfold fits_action in *. intros l L. apply X. pose proof (act_view me n a (a_key b)) as V.
    destruct (Z.eqb_spec (a_key b) (a_key a)) as [E|_]; [contradiction|]. unfold view_of in V. congruence.
  - intro k. pose proof (O k) as L. cbn [of_key filter] in L. destruct (k =? a_key a); cbn in L |- *; unfold of_key; lia.
Qed.

Lemma message_needed me e s : is_message e = true -> bad_of e = [] -> inv me s -> needed (s_node s) -> needed (s_node (sstep me s e)).
Proof.
  intros M B (D1 & D2 & K) H. rewrite (sstep_message me s e M), B. cbn [on_node s_node].
  pose proof (fun k => message_key (s_truth s) (n_store (s_node s)) e k D1) as MK.
  destruct (message_for (s_truth s) (n_store (s_node s)) e) as [st acts]. cbn [fst snd] in MK. apply acts_needed.
  - exact H.
  - intros a I l L. cbn [set_store n_follow] in L. destruct (MK (a_key a)) as [_ A].
    assert (J : In a (of_key (a_key a) acts)) by (apply filter_In; split; [exact I|apply Z.eqb_refl]). rewrite A in J.
    destruct (delivered (s_truth s) e (a_key a)); [|destruct J]. pose proof (K (a_key a)) as (_ & _ & FO & _ & V).
    unfold known, actual in *. unfold view_of in V. rewrite L in V.
    destruct (get (n_store (s_node s)) (a_key a)) as [o|] eqn:S; destruct (get (s_truth s) (a_key a)) as [r|] eqn:T; cbn in J.
    + destruct (rep_eqb o r); [destruct J|]. destruct J as [<-|[]]. destruct V as [_ V]. destruct (FO o r eq_refl eq_refl) as (_ & _ & F1 & F2).
      destruct (r_deleting o). { destruct V as (_ & C & _). discriminate. }
      destruct (r_leader o =? me). { destruct V as (_ & C & _). discriminate. }
      assert (E : l = r_leader o) by (destruct (existsb (Z.eqb me) (r_replicas o)); destruct V as [_ V]; [destruct V as [V _]; congruence|destruct V as [[V _]|[V _]]; congruence]).
      split; [exact E|]. intro DR. rewrite E. exact (F2 DR eq_refl).
    + destruct J as [<-|[]]. destruct V as [_ V]. destruct (r_deleting o). { destruct V as (_ & C & _). discriminate. }
      destruct (r_leader o =? me). { destruct V as (_ & C & _). discriminate. }
      destruct (existsb (Z.eqb me) (r_replicas o)); destruct V as [_ V]; [destruct V as [V _]; congruence|destruct V as [[V _]|[V _]]; congruence].
    + destruct V as (_ & C & _). discriminate.
    + destruct J.
  - intro k. destruct (MK k) as [_ A]. rewrite A. destruct (delivered (s_truth s) e k); [|cbn; lia].
    unfold act_of. destruct (get (s_truth s) k), (get (n_store (s_node s)) k); [destruct (rep_eqb _ _)| | |]; cbn; lia.
Qed.

Lemma step_needed me s e : inv me s -> orderly me s e -> needed (s_node s) -> needed (s_node (sstep me s e)).
Proof.
  intros I O H. assert (T : forall k f, needed (s_node (on_truth s k f))) by (intros k f; unfold on_truth; destruct (get (s_truth s) k); exact H).
  destruct (is_message e) eqn:M.
  - apply message_needed; [exact M| |exact I|exact H]. destruct e; try discriminate M; exact O.
  - destruct e; try discriminate M; cbn [sstep]; try exact H; try apply T.
    + destruct (get (s_truth s) k); exact H.
    + unfold confirmed. destruct (n_out (s_node s)); exact H.
    + split; [constructor|]. intros l L. discriminate.
    + cbn [on_node s_node]. unfold written. destruct (_ || _); [|exact H]. destruct (n_disk (s_node s) k); exact H.
Qed.

Lemma run_needed me es l : orderly_run me sys0 es -> n_groups (s_node (srun me sys0 es)) l = true ->
  exists k, get (n_follow (s_node (srun me sys0 es))) k = Some l.
Proof.
  intro O. assert (G : forall es s, inv me s -> needed (s_node s) -> orderly_run me s es -> needed (s_node (srun me s es))).
  { intro x. induction x as [|e x IH]; intros s I H OR; [exact H|]. destruct OR as [O1 O2].
    exact (IH _ (step_inv me s e I O1) (step_needed me s e I O1 H) O2). }
  apply (G es sys0 (inv0 me)); [|exact O]. split; [constructor|]. intros x X. discriminate.
Qed.

(** ** What goes wrong *)

(** node 3 has no replica and hears of two leaders *)
Definition uninvolved_history : list event := [Create 1 1 [1; 2] 0; Told [1] []; Lead 1 2; Told [1] []].

Lemma uninvolved_ok : orderly_run 3 sys0 uninvolved_history.
Proof.
  cbn. split; [split; [left; reflexivity|split; [reflexivity|intros []]]|]. split; [reflexivity|]. split.
  - intros r E. injection E as <-. split; [right; left; reflexivity|reflexivity].
  - split; [reflexivity|exact Logic.I].
Qed.

Lemma uninvolved : exists es k r, let s := srun 3 sys0 es in orderly_run 3 sys0 es /\
  actual s k = Some r /\ known s k = Some r /\ ~ involved 3 r /\
  get (n_follow (s_node s)) k = Some (r_leader r) /\ n_disk (s_node s) k <> None.
Proof.
  exists uninvolved_history, 1, (mkRep 2 [1; 2] false 0 0). split; [exact uninvolved_ok|]. split; [reflexivity|]. split; [reflexivity|].
  split; [intros [C|[C|[]]]; discriminate|]. split; [reflexivity|]. discriminate.
Qed.

Definition good_message (e : event) : Prop := is_message e = true /\ bad_of e = [].

(** a replica whose storage could not be opened once *)
Lemma not_retried : exists es k, let s := srun 1 sys0 es in assigned 1 (actual s k) = Leads /\
  forall ms, (forall e, In e ms -> good_message e) -> let s' := srun 1 s ms in
    assigned 1 (actual s' k) = Leads /\ plays (s_node s') k Nothing.
Proof.
  exists [Create 1 1 [1; 2] 0; Told [1] [1]], 1. split; [reflexivity|]. intros ms H.
  set (s := srun 1 sys0 [Create 1 1 [1; 2] 0; Told [1] [1]]).
  assert (D : distinct (s_truth s)) by (apply distinct_run; constructor).
  destruct (settled_run 1 ms s 1 H D eq_refl) as (A & B). cbn zeta. rewrite B. split; [reflexivity|].
  unfold view_of in A. cbn in A. injection A as A1 A2 A3. split; assumption.
Qed.

(** the leader of a partition hears of another leader and of the deletion in one message *)
Lemma still_leads : exists es k, let s := srun 1 sys0 es in actual s k = None /\ known s k = None /\
  forall ms, (forall e, In e ms -> good_message e) -> let s' := srun 1 s ms in
    actual s' k = None /\ n_lead (s_node s') k = true /\ n_disk (s_node s') k = Some [(0, 7)].
Proof.
  exists [Create 1 1 [1; 2] 0; Told [1] []; Write 1 7; Lead 1 2; Mark 1; Told [1] []; Remove 1; Told [1] []], 1.
  split; [reflexivity|]. split; [reflexivity|]. intros ms H.
  set (s := srun 1 sys0 [Create 1 1 [1; 2] 0; Told [1] []; Write 1 7; Lead 1 2; Mark 1; Told [1] []; Remove 1; Told [1] []]).
  assert (D : distinct (s_truth s)) by (apply distinct_run; constructor).
  destruct (settled_run 1 ms s 1 H D eq_refl) as (A & B). cbn zeta. rewrite B. split; [reflexivity|].
  unfold view_of in A. cbn in A. injection A as A1 A2 A3. split; assumption.
Qed.

(** the node is down while a topic is deleted, and its name is used again *)
Lemma old_records_restart : exists es k r, let s := srun 1 sys0 es in
  es = [Create 1 1 [1] 0; Sync []; Write 1 7; Stop; Remove 1; Create 1 1 [1] 0; Sync []] /\
  actual s k = Some r /\ plays (s_node s) k Leads /\ exists x, n_disk (s_node s) k = Some [x] /\ fst x <> r_inc r.
Proof.
  eexists. exists 1, (mkRep 1 [1] false 0 1). split; [reflexivity|]. split; [reflexivity|]. split; [split; reflexivity|].
  exists (0, 7). split; [reflexivity|]. discriminate.
Qed.

(** the node has no connection while a topic is deleted, and its name is used again *)
Lemma old_records_reconnect : exists es k r, let s := srun 1 sys0 es in
  es = [Create 1 1 [1] 0; Sync []; Write 1 7; Remove 1; Create 1 1 [1] 0; Sync []] /\
  actual s k = Some r /\ plays (s_node s) k Leads /\ exists x, n_disk (s_node s) k = Some [x] /\ fst x <> r_inc r.
Proof.
  eexists. exists 1, (mkRep 1 [1] false 0 1). split; [reflexivity|]. split; [reflexivity|]. split; [split; reflexivity|].
  exists (0, 7). split; [reflexivity|]. discriminate.
Qed.

(** the removal report of the old partition arrives when the name is used again *)
Lemma new_deleted : exists es k r, let s := srun 1 sys0 es in
  es = [Create 1 1 [1] 0; Sync []; Remove 1; Told [1] []; Create 1 1 [1] 0] /\
  actual s k = Some r /\ r_deleting r = false /\ actual (sstep 1 s Confirmed) k = None.
Proof.
  eexists. exists 1, (mkRep 1 [1] false 0 1). split; [reflexivity|]. split; [reflexivity|]. split; [reflexivity|]. reflexivity.
Qed.

(** a started node reports the removal of files it has not removed *)
Lemma reported_not_removed : exists es k, let s := srun 1 sys0 es in
  es = [Create 1 1 [1] 0; Sync []; Write 1 7; Mark 1; Stop; Sync []] /\
  In k (n_out (s_node s)) /\ n_disk (s_node s) k = Some [(0, 7)] /\ actual (sstep 1 s Confirmed) k = None.
Proof.
  eexists. exists 1. split; [reflexivity|]. split; [left; reflexivity|]. split; reflexivity.
Qed.

(** ** Files of partitions that are not deleted stay *)

Definition removes (a : action) : Prop :=
  match a with AAdd _ r => r_deleting r = true | AMod _ r _ => r_deleting r = true | ADel _ _ => True end.

Lemma unfollow_disk n p k : n_disk (fst (unfollow n p k)) = n_disk n.
Proof. unfold unfollow. destruct (get (n_follow n) k); [|reflexivity]. cbn. destruct (_ =? 0); reflexivity. Qed.

Lemma add_follower_disk bad n k r j d : n_disk n j = Some d -> n_disk (add_follower bad n k r) j = Some d.
Proof.
  intro H. unfold add_follower. destruct (get (n_follow n) k); [exact H|]. destruct (existsb (Z.eqb k) bad); [exact H|].
  cbn [set_group set_disk set_follow n_disk]. unfold upd. destruct (Z.eqb_spec j k) as [->|]; [rewrite H; reflexivity|exact H].
Qed.

Lemma remove_disk me n k r j d : j <> k -> n_disk n j = Some d -> n_disk (remove_replica me n k r) j = Some d.
Proof.
  intros N H. pose proof (remove_view me n k r j) as V. destruct (Z.eqb_spec j k) as [E|_]; [contradiction|]. unfold view_of in V. congruence.
Qed.

Lemma act_disk me bad n a j d : n_disk n j = Some d -> (a_key a = j -> ~ removes a) -> n_disk (act me bad n a) j = Some d.
Proof.
  intros H K.
  assert (R : forall k r (P : Prop), (k = j -> ~ P) -> P -> n_disk (remove_replica me n k r) j = Some d).
  { intros k r P X p. apply remove_disk; [|exact H]. intros ->. exact (X eq_refl p). }
  destruct a as [k r|k new old|k r]; cbn [act a_key removes] in *.
  - destruct (r_deleting r); [exact (R k r _ K eq_refl)|]. destruct (r_leader r =? me).
    + unfold add_leader. destruct (existsb (Z.eqb k) bad); [exact H|]. cbn [set_lead set_disk n_disk]. unfold upd.
      destruct (Z.eqb_spec j k) as [->|]; [rewrite H; reflexivity|exact H].
    + destruct (existsb (Z.eqb me) (r_replicas r)); [apply add_follower_disk|]; exact H.
  - destruct (r_deleting new); [exact (R k new _ K eq_refl)|]. destruct (negb (r_leader new =? r_leader old)); [|exact H].
    destruct (r_leader new =? me).
    + unfold promote. pose proof (unfollow_disk n (r_leader old) k) as U. destruct (unfollow n (r_leader old) k) as [n' b]. cbn [fst] in U.
      rewrite <- U in H. destruct b; [destruct (existsb (Z.eqb k) bad)|]; exact H.
    + destruct (r_leader old =? me).
      * unfold demote. destruct (n_lead n k); [|exact H]. apply add_follower_disk. exact H.
      * apply add_follower_disk. rewrite unfollow_disk. exact H.
  - exact (R k r _ K Logic.I).
Qed.

Lemma acts_disk me bad acts n j d : n_disk n j = Some d -> (forall a, In a (of_key j acts) -> ~ removes a) ->
  n_disk (fold_left (act me bad) acts n) j = Some d.
Proof.
  revert n. induction acts as [|a acts IH]; intros n H K; [exact H|]. cbn [fold_left of_key filter] in *.
  apply IH.
  - apply act_disk; [exact H|]. intro E. apply K. rewrite E, Z.eqb_refl. left. reflexivity.
  - intros b B. apply K. destruct (j =? a_key a); [right|]; exact B.
Qed.

Lemma kept me es e k r d : let s := srun me sys0 es in
  actual s k = Some r -> r_deleting r = false -> n_disk (s_node s) k = Some d ->
  exists more, n_disk (s_node (sstep me s e)) k = Some (d ++ more) /\
    (more = [] \/ exists x, e = Write k x).
Proof.
  intros s T D H. assert (Ds : distinct (s_truth s)) by (apply distinct_run; constructor).
  destruct (is_message e) eqn:M.
  - exists []. rewrite app_nil_r. split; [|left; reflexivity]. rewrite (sstep_message me s e M). cbn [on_node s_node].
    destruct (message_key (s_truth s) (n_store (s_node s)) e k Ds) as [_ A].
    destruct (message_for (s_truth s) (n_store (s_node s)) e) as [st acts]. cbn [snd] in A. apply acts_disk; [exact H|].
    intros a I. rewrite A in I. destruct (delivered (s_truth s) e k); [|destruct I]. unfold actual in T. rewrite T in I. cbn in I.
    destruct (get (n_store (s_node s)) k) as [o|]; [destruct (rep_eqb o r); [destruct I|]|]; destruct I as [<-|[]]; cbn; congruence.
  - assert (OT : forall j f, n_disk (s_node (on_truth s j f)) k = Some d) by (intros j f; unfold on_truth; destruct (get (s_truth s) j); exact H).
    destruct e as [j l rs c|j l|j c|j|j| | | | |j x]; try discriminate M; cbn [sstep];
      try (exists []; rewrite app_nil_r; split; [first [exact H|apply OT]|left; reflexivity]).
    + exists []. rewrite app_nil_r. split; [destruct (get (s_truth s) j); exact H|left; reflexivity].
    + exists []. rewrite app_nil_r. split; [unfold confirmed; destruct (n_out (s_node s)); exact H|left; reflexivity].
    + cbn [on_node s_node]. unfold written. destruct (_ || _); [|exists []; rewrite app_nil_r; split; [exact H|left; reflexivity]].
      destruct (n_disk (s_node s) j) as [dj|] eqn:E; [|exists []; rewrite app_nil_r; split; [exact H|left; reflexivity]].
      cbn [set_disk n_disk]. unfold upd. destruct (Z.eqb_spec k j) as [<-|N].
      * rewrite H in E. injection E as <-. eexists. split; [reflexivity|]. right. exists x. reflexivity.
      * exists []. rewrite app_nil_r. split; [exact H|left; reflexivity].
Qed.

(** ** A history in which leaders change, the node restarts and a name is used again *)

Definition a_history : list event :=
  [Create 1 2 [1; 2] 0; Sync []; Write 1 5; Lead 1 1; Told [1] []; Write 1 6; Create 2 1 [1; 3] 0; Told [2] []; Stop; Sync [];
   Mark 2; Told [2] []; Confirmed; Told [2] []; Confirmed; Create 2 1 [1] 0; Told [2] []; Write 2 9].

Lemma a_history_ok : orderly_run 1 sys0 a_history.
Proof.
  unfold a_history. cbn [orderly_run].
  refine (conj (conj (or_intror (or_introl eq_refl)) (conj _ _)) (conj _ (conj Logic.I (conj _ (conj _ (conj Logic.I
    (conj (conj (or_introl eq_refl) (conj _ _)) (conj _ (conj _ (conj _ (conj _ (conj _ (conj Logic.I (conj _ (conj Logic.I
    (conj (conj (or_introl eq_refl) (conj _ _)) (conj _ (conj Logic.I Logic.I))))))))))))))))));
    try (vm_compute; reflexivity); try (vm_compute; tauto).
  - intros r E. vm_compute in E. injection E as <-. split; [left; reflexivity|reflexivity].
  - intros k H. destruct (Z.eq_dec k 1) as [->|N1].
    { exists (mkRep 1 [1; 2] false 0 0). split; [vm_compute; reflexivity|]. split; [reflexivity|left; reflexivity]. }
    destruct (Z.eq_dec k 2) as [->|N2].
    { exists (mkRep 1 [1; 3] false 0 1). split; [vm_compute; reflexivity|]. split; [reflexivity|left; reflexivity]. }
    elim H. vm_compute. destruct k as [|p|p]; [reflexivity| |reflexivity].
    destruct p as [p|p|]; [reflexivity| |congruence]. destruct p as [p|p|]; [reflexivity|reflexivity|congruence].
  - intros r E. vm_compute in E. injection E as <-. exists (mkRep 1 [1; 3] false 0 1). split; [vm_compute; reflexivity|reflexivity].
Qed.

Lemma a_history_result : let s := srun 1 sys0 a_history in
  plays (s_node s) 1 Leads /\ plays (s_node s) 2 Leads /\
  n_disk (s_node s) 1 = Some [(0, 5); (0, 6)] /\ n_disk (s_node s) 2 = Some [(2, 9)] /\
  actual s 2 = Some (mkRep 1 [1] false 0 2).
Proof.
  cbn zeta. refine (conj (conj _ _) (conj (conj _ _) (conj _ (conj _ _)))); vm_compute; reflexivity.
Qed.

Lemma a_history_store : n_store (s_node (srun 1 sys0 a_history)) = [(2, mkRep 1 [1] false 0 2); (1, mkRep 1 [1; 2] false 0 0)].
Proof. vm_compute. reflexivity. Qed.

Lemma two_involved k r : get [(2, mkRep 1 [1] false 0 2); (1, mkRep 1 [1; 2] false 0 0)] k = Some r -> involved 1 r.
Proof.
  cbn [get]. destruct (2 =? k); [intro H; injection H as <-; left; reflexivity|].
  destruct (1 =? k); [intro H; injection H as <-; left; reflexivity|discriminate].
Qed.

Lemma a_history_involved k r : known (srun 1 sys0 a_history) k = Some r -> involved 1 r.
Proof. unfold known. rewrite a_history_store. apply two_involved. Qed.
