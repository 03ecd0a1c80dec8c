(** Proofs about events and their listeners. *)
From Coq Require Import Lia.
From Verif Require Import EventModel EventSpec.

Lemma set_same {A} (f : task -> A) i a : set f i a i = a.
Proof. unfold set. rewrite Nat.eqb_refl. reflexivity. Qed.
Lemma set_other {A} (f : task -> A) i j a : j <> i -> set f i a j = f j.
Proof. intros H. unfold set. destruct (Nat.eqb_spec j i); [contradiction|reflexivity]. Qed.

Lemma exec_app k s l1 l2 s' rs : exec k s (l1 ++ l2) = Some (s', rs) ->
  exists s1 rs1 rs2, exec k s l1 = Some (s1, rs1) /\ exec k s1 l2 = Some (s', rs2) /\ rs = rs1 ++ rs2.
Proof.
  revert s s' rs. induction l1 as [|a l1 IH]; intros s s' rs H; cbn in *.
  - exists s, [], rs. split; [reflexivity|]. split; [exact H|reflexivity].
  - destruct (estep k s a) as [[s1 r]|]; [|discriminate].
    destruct (exec k s1 (l1 ++ l2)) as [[s2 rs2]|] eqn:E; [|discriminate]. injection H as <- <-.
    destruct (IH _ _ _ E) as (s3 & r1 & r2 & E1 & E2 & ->). rewrite E1. destruct r as [x|].
    + exists s3, (x :: r1), r2. split; [reflexivity|]. split; [exact E2|reflexivity].
    + exists s3, r1, r2. split; [reflexivity|]. split; [exact E2|reflexivity].
Qed.
Lemma exec_app_inv k s l1 l2 s1 rs1 s' rs2 : exec k s l1 = Some (s1, rs1) -> exec k s1 l2 = Some (s', rs2) ->
  exec k s (l1 ++ l2) = Some (s', rs1 ++ rs2).
Proof.
  revert s s1 rs1. induction l1 as [|a l1 IH]; intros s s1 rs1 H1 H2; cbn in *.
  - injection H1 as <- <-. exact H2.
  - destruct (estep k s a) as [[s2 r]|]; [|discriminate].
    destruct (exec k s2 l1) as [[s3 rs3]|] eqn:E; [|discriminate]. injection H1 as <- <-.
    rewrite (IH _ _ _ E H2). destruct r; reflexivity.
Qed.
Lemma reachable_new k v : reachable k v (new_event v).
Proof. exists [], []. reflexivity. Qed.
Lemma reachable_step k v s a s' r : reachable k v s -> estep k s a = Some (s', r) -> reachable k v s'.
Proof.
  intros (l & rs & H) E. exists (l ++ [a]), (rs ++ match r with Some x => [x] | None => [] end).
  apply (exec_app_inv k (new_event v) l [a] s rs s' _ H). cbn. rewrite E. reflexivity.
Qed.
Lemma reachable_ind_ k v (P : event -> Prop) : P (new_event v) ->
  (forall s a s' r, reachable k v s -> P s -> estep k s a = Some (s', r) -> P s') -> forall s, reachable k v s -> P s.
Proof.
  intros H0 HS s (l & rs & H). revert s rs H. induction l as [|a l IH] using rev_ind; intros s rs H.
  - cbn in H. injection H as <- <-. exact H0.
  - destruct (exec_app _ _ _ _ _ _ H) as (s1 & r1 & r2 & E1 & E2 & _). cbn in E2.
    destruct (estep k s1 a) as [[s2 r]|] eqn:E; [|discriminate]. injection E2 as -> _.
    apply (HS s1 a s r); [exists l, r1; exact E1|exact (IH _ _ E1)|exact E].
Qed.

(** * A listener that is left waiting has seen the value, or a notification is
    on its way *)

Definition good (k : kind) (s : event) : Prop := forall j, left_waiting s j ->
  is_new k (e_value s) (last_seen s j) = false \/ publishing s.

Lemma notified_at l : l_at (notified l) <> LWaiting false.
Proof. unfold notified. destruct (l_at l) as [| |[]|[]|]; cbn; discriminate. Qed.

Lemma estep_good k s a s' r : good k s -> estep k s a = Some (s', r) -> good k s'.
Proof.
  intros G E j W. unfold left_waiting, last_seen, publishing in *. destruct a as [i v|i|i|i|i|i x|i]; cbn in E.
  - destruct k, (e_pubs s i); try discriminate; injection E as <- <-; right; exists i; apply set_same.
  - destruct k, (e_pubs s i) eqn:P; try discriminate. injection E as <- <-. cbn in *.
    destruct (G j W) as [H|(i' & H)]; [left; exact H|right]. exists i'. rewrite set_other; [exact H|]. intros ->. congruence.
  - destruct k, (e_pubs s i) eqn:P; try discriminate. injection E as <- <-. cbn in *.
    destruct (G j W) as [H|(i' & H)]; [left; exact H|right]. exists i'. rewrite set_other; [exact H|]. intros ->. congruence.
  - destruct (e_pubs s i); try discriminate. injection E as <- <-. right. exists i. apply set_same.
  - destruct (e_pubs s i); try discriminate. injection E as <- <-. cbn in W. destruct (notified_at _ W).
  - destruct (lstep k (e_value s) x (e_lis s i)) as [[l r']|] eqn:L; [|discriminate]. injection E as <- <-. cbn in *.
    destruct (Nat.eq_dec j i) as [->|N]; [|rewrite set_other in * by exact N; exact (G j W)].
    rewrite set_same in *. unfold lstep in L.
    destruct x, (l_at (e_lis s i)) as [| |n|n|] eqn:A; try discriminate;
      try (destruct n; try discriminate);
      try (destruct (is_new k (e_value s) (l_last (e_lis s i))) eqn:Q); injection L as <- <-; cbn in *; try discriminate; left; exact Q.
  - destruct k, (l_at (e_lis s i)) eqn:A; try discriminate. injection E as <- <-. cbn in *.
    destruct (Nat.eq_dec j i) as [->|N]; [rewrite set_same in W; discriminate|]. rewrite set_other in * by exact N. exact (G j W).
Qed.
Lemma reachable_good k v s : reachable k v s -> good k s.
Proof.
  apply reachable_ind_; [intros j W; discriminate W|]. intros s0 a s' r _ G E. exact (estep_good k s0 a s' r G E).
Qed.

(** * It goes on *)

(** How many steps [j] is from a return, when there is something new. *)
Definition away (w : where_l) : nat :=
  match w with LOut => 1 | LChecked => 2 | LRegistered _ => 1 | LWaiting _ => 2 | LWoken => 1 end.

Lemma listening_step k s j a s' r : estep k s a = Some (s', r) -> listening j a ->
  is_new k (e_value s) (last_seen s j) = true -> ~ left_waiting s j ->
  (r = Some (j, e_value s) /\ (exists x, a = Listen j x))
  \/ ((forall x, a <> Listen j x) /\ e_lis s' j = e_lis s j /\ e_value s' = e_value s /\ (forall v, r <> Some (j, v)))
  \/ ((exists x, a = Listen j x) /\ r = None /\ e_value s' = e_value s /\ last_seen s' j = last_seen s j
      /\ ~ left_waiting s' j /\ (away (l_at (e_lis s' j)) < away (l_at (e_lis s j)))%nat).
Proof.
  intros E H Q W. destruct a as [i v|i|i|i|i|i x|i]; cbn in H; try contradiction; cbn in E.
  - destruct (lstep k (e_value s) x (e_lis s i)) as [[l r']|] eqn:L; [|discriminate]. injection E as <- <-.
    destruct (Nat.eq_dec i j) as [->|N].
    + unfold lstep in L. unfold left_waiting, last_seen in *. cbn. rewrite !set_same.
      destruct x, (l_at (e_lis s j)) as [| |n|n|] eqn:A; try discriminate; try (destruct n; try discriminate);
        try (rewrite Q in L); injection L as <- <-; cbn; try (destruct (H eq_refl eq_refl));
        (left; split; [reflexivity|eexists; reflexivity]) ||
        (right; right; split; [eexists; reflexivity|]; repeat (split; [reflexivity|]); split; [discriminate|]; lia).
    + right. left. cbn. rewrite set_other by congruence. split; [intros y X; injection X as -> _; exact (N eq_refl)|].
      split; [reflexivity|]. split; [reflexivity|]. intros v X. destruct r'; cbn in X; [injection X as -> _; exact (N eq_refl)|discriminate].
  - destruct k, (l_at (e_lis s i)); try discriminate. injection E as <- <-. right. left. cbn. rewrite set_other by congruence.
    split; [discriminate|]. split; [reflexivity|]. split; [reflexivity|discriminate].
Qed.

Lemma away_1 w : (1 <= away w)%nat.
Proof. destruct w; cbn; lia. Qed.
Lemma away_3 w : (away w <= 2)%nat.
Proof. destruct w; cbn; lia. Qed.

Lemma listening_returns k j l : forall s s' rs, exec k s l = Some (s', rs) -> Forall (listening j) l ->
  is_new k (e_value s) (last_seen s j) = true -> ~ left_waiting s j -> (away (l_at (e_lis s j)) <= steps_of j l)%nat ->
  exists vs, returned j rs = e_value s :: vs.
Proof.
  induction l as [|a l IH]; intros s s' rs E F Q W N; cbn in E.
  - cbn in N. destruct (l_at (e_lis s j)); cbn in N; lia.
  - destruct (estep k s a) as [[s1 r]|] eqn:E1; [|discriminate].
    destruct (exec k s1 l) as [[s2 rs2]|] eqn:E2; [|discriminate]. injection E as <- <-. inversion F as [|? ? Fa Fl]. subst.
    destruct (listening_step k s j a s1 r E1 Fa Q W) as [(-> & x & ->)|[(NA & EL & EV & NR)|((x & ->) & -> & EV & EL & W' & D)]].
    + exists (returned j rs2). unfold returned. cbn. rewrite Nat.eqb_refl. reflexivity.
    + assert (NS : steps_of j (a :: l) = steps_of j l).
      { unfold steps_of. cbn. destruct a; try reflexivity. destruct (Nat.eqb_spec j0 j); [|reflexivity]. subst. destruct (NA _ eq_refl). }
      destruct (IH s1 s2 rs2 E2 Fl) as (vs & R).
      * unfold last_seen in *. rewrite EL, EV. exact Q.
      * unfold left_waiting in *. rewrite EL. exact W.
      * rewrite EL, <- NS. exact N.
      * exists vs. rewrite <- EV, <- R. unfold returned. destruct r as [[i v]|]; [|reflexivity]. cbn.
        destruct (Nat.eqb_spec i j); [subst; destruct (NR v eq_refl)|reflexivity].
    + assert (NS : steps_of j (Listen j x :: l) = S (steps_of j l)).
      { unfold steps_of. cbn. rewrite Nat.eqb_refl. reflexivity. }
      rewrite NS in N. destruct (IH s1 s2 rs2 E2 Fl) as (vs & R).
      * rewrite EV, EL. exact Q.
      * exact W'.
      * lia.
      * exists vs. rewrite <- EV. exact R.
Qed.

Lemma delivered k v0 s j l s' rs : reachable k v0 s -> quiet s -> is_new k (e_value s) (last_seen s j) = true ->
  exec k s l = Some (s', rs) -> Forall (listening j) l -> (2 <= steps_of j l)%nat ->
  exists vs, returned j rs = e_value s :: vs.
Proof.
  intros R Qt Q E F N. apply (listening_returns k j l s s' rs E F Q).
  - intros W. destruct (reachable_good k v0 s R j W) as [X|(i & X)]; [congruence|]. apply (Qt i). unfold active. rewrite X. discriminate.
  - pose proof (away_3 (l_at (e_lis s j))). lia.
Qed.

Lemma can_go_on k s j : ~ left_waiting s j -> exists x, x <> Drop /\ estep k s (Listen j x) <> None.
Proof.
  intros W. unfold left_waiting in W. cbn. unfold lstep. destruct (l_at (e_lis s j)) as [| |n|[]|] eqn:A.
  - exists Check. split; [discriminate|]. destruct (is_new k (e_value s) (l_last (e_lis s j))); discriminate.
  - exists Register. split; discriminate.
  - exists Recheck. split; [discriminate|]. destruct (is_new k (e_value s) (l_last (e_lis s j))); discriminate.
  - exists Wake. split; discriminate.
  - destruct (W eq_refl).
  - exists Read. split; discriminate.
Qed.

(** * What is returned *)

Lemma estep_returned k s a s' j v : estep k s a = Some (s', Some (j, v)) ->
  v = e_value s /\ e_value s' = v /\ last_seen s' j = remember k v (last_seen s j) /\ exists x, a = Listen j x.
Proof.
  intros E. destruct a as [i w|i|i|i|i|i x|i]; cbn in E.
  - destruct k, (e_pubs s i); discriminate.
  - destruct k, (e_pubs s i); discriminate.
  - destruct k, (e_pubs s i); discriminate.
  - destruct (e_pubs s i); discriminate.
  - destruct (e_pubs s i); discriminate.
  - destruct (lstep k (e_value s) x (e_lis s i)) as [[l r']|] eqn:L; [|discriminate]. injection E as <- E.
    destruct r' as [v'|]; [|discriminate]. injection E as -> ->. unfold lstep in L.
    assert (X : v = e_value s /\ l = mkL (remember k (e_value s) (l_last (e_lis s j))) LOut).
    { destruct x, (l_at (e_lis s j)) as [| |n|n|]; try discriminate; try (destruct n; try discriminate);
        try (destruct (is_new k (e_value s) (l_last (e_lis s j)))); try discriminate; injection L as <- <-; split; reflexivity. }
    destruct X as [-> ->]. split; [reflexivity|]. split; [reflexivity|]. split; [|exists x; reflexivity].
    unfold last_seen. cbn. rewrite set_same. reflexivity.
  - destruct k, (l_at (e_lis s i)); discriminate.
Qed.

Lemma held_head k s l : exists t, held k s l = e_value s :: t.
Proof. destruct l; cbn; eexists; reflexivity. Qed.
Lemma returned_follow k j l : forall s s' rs, exec k s l = Some (s', rs) -> follows (returned j rs) (held k s l).
Proof.
  induction l as [|a l IH]; intros s s' rs E; cbn in E.
  - injection E as <- <-. constructor.
  - destruct (estep k s a) as [[s1 r]|] eqn:E1; [|discriminate].
    destruct (exec k s1 l) as [[s2 rs2]|] eqn:E2; [|discriminate]. injection E as <- <-.
    specialize (IH _ _ _ E2). cbn. rewrite E1. destruct r as [[i v]|]; [|apply f_skip; exact IH].
    unfold returned. cbn. destruct (Nat.eqb_spec i j); [|apply f_skip; exact IH]. subst.
    destruct (estep_returned _ _ _ _ _ _ E1) as (-> & _). cbn. apply f_take. apply f_skip. exact IH.
Qed.
Lemma rising_le x l : rising (x :: l) -> forall y, In y l -> x <= y.
Proof.
  revert x. induction l as [|z l IH]; intros x H y I; [destruct I|]. inversion H as [| |? ? ? L H']; subst.
  destruct I as [->|I]; [exact L|]. pose proof (IH z H' y I). lia.
Qed.
Lemma follows_In r l : follows r l -> forall x, In x r -> In x l.
Proof. induction 1; intros y I; cbn in *; [destruct I|right; auto|destruct I as [->|I]; [left; reflexivity|auto]]. Qed.
Lemma follows_rising r l : follows r l -> rising l -> rising r.
Proof.
  induction 1 as [l|r x l F IH|r x l F IH]; intros H.
  - constructor.
  - apply IH. inversion H; subst; [constructor|assumption].
  - specialize (IH H). destruct r as [|y r]; constructor; [|exact IH].
    assert (I : In y (x :: l)) by (apply (follows_In _ _ F); left; reflexivity).
    destruct I as [->|I]; [lia|exact (rising_le x l H y I)].
Qed.

(** * Sticky events *)

Lemma sticky_values s : reachable Sticky 0 s -> (forall j, last_seen s j = 0) /\ (e_value s = 0 \/ e_value s = 1)
  /\ (publishing s -> e_value s = 1) /\ forall i v, e_pubs s i <> PHas v.
Proof.
  revert s. apply reachable_ind_.
  - cbn. split; [reflexivity|]. split; [left; reflexivity|]. split; [intros (i & H); discriminate|discriminate].
  - intros s0 a s' r _ (HL & HV & HP & HN) E. unfold last_seen, publishing in *. destruct a as [i v|i|i|i|i|i x|i]; cbn in E; try discriminate.
    + destruct (e_pubs s0 i); try discriminate. injection E as <- <-. cbn. split; [exact HL|]. split; [right; reflexivity|].
      split; [reflexivity|]. intros i' v'. unfold set. destruct (Nat.eqb i' i); [discriminate|apply HN].
    + destruct (e_pubs s0 i) eqn:P; try discriminate. destruct (HN i v P).
    + destruct (e_pubs s0 i) eqn:P; try discriminate. injection E as <- <-. cbn. split; [exact HL|]. split; [exact HV|].
      split; [intros _; apply HP; exists i; exact P|]. intros i' v'. unfold set. destruct (Nat.eqb i' i); [discriminate|apply HN].
    + destruct (lstep Sticky (e_value s0) x (e_lis s0 i)) as [[l r']|] eqn:L; [|discriminate]. injection E as <- <-. cbn.
      split; [|split; [exact HV|split; [exact HP|exact HN]]]. intros j. unfold set. destruct (Nat.eqb_spec j i); [subst|apply HL].
      specialize (HL i). unfold lstep in L.
      destruct x, (l_at (e_lis s0 i)) as [| |n|n|]; try discriminate; try (destruct n; try discriminate);
        try (destruct (is_new Sticky (e_value s0) (l_last (e_lis s0 i)))); injection L as <- <-; cbn; exact HL.
Qed.
Lemma sticky_stays k s l s' rs : k = Sticky -> reachable k 0 s -> exec k s l = Some (s', rs) -> e_value s = 1 -> e_value s' = 1.
Proof.
  intros -> R E H. revert s rs R E H. induction l as [|a l IH]; intros s rs R E H; cbn in E.
  - injection E as <- _. exact H.
  - destruct (estep Sticky s a) as [[s1 r]|] eqn:E1; [|discriminate].
    destruct (exec Sticky s1 l) as [[s2 rs2]|] eqn:E2; [|discriminate]. injection E as -> _.
    apply (IH s1 rs2); [exact (reachable_step _ _ _ _ _ _ R E1)|exact E2|].
    destruct (sticky_values s R) as (_ & _ & _ & HN).
    destruct a as [i v|i|i|i|i|i x|i]; cbn in E1; try discriminate.
    + destruct (e_pubs s i); try discriminate. injection E1 as <- _. reflexivity.
    + destruct (e_pubs s i) eqn:P; try discriminate. destruct (HN i v P).
    + destruct (e_pubs s i); try discriminate. injection E1 as <- _. exact H.
    + destruct (lstep Sticky (e_value s) x (e_lis s i)) as [[l1 r']|]; [|discriminate]. injection E1 as <- _. exact H.
Qed.

(** * Metadata *)

Lemma one_writer_reachable s : one_writer s -> reachable Metadata 0 s.
Proof. induction 1; [apply reachable_new|]. exact (reachable_step _ _ _ _ _ _ IHone_writer H0). Qed.
Definition one_writer_inv (s : event) : Prop :=
  (forall i v, e_pubs s i = PHas v -> v = e_epoch s)
  /\ (e_value s = e_epoch s \/ exists i v, e_pubs s i = PHas v).
Lemma one_writer_ok s : one_writer s -> one_writer_inv s.
Proof.
  unfold one_writer_inv. induction 1 as [|s a s' r H IH E U].
  - split; [discriminate|left; reflexivity].
  - destruct IH as (HV & HE). unfold active in U. destruct a as [i v|i|i|i|i|i x|i]; cbn in E; try discriminate.
    + destruct (e_pubs s i) eqn:P; try discriminate. injection E as <- <-. cbn in *. split.
      * intros i' v'. unfold set. destruct (Nat.eqb_spec i' i); [intros X; injection X as <-; reflexivity|].
        intros X. assert (i' = i); [|contradiction]. apply U; rewrite ?set_same, ?(set_other _ _ _ _ n), ?X; discriminate.
      * right. exists i, (e_epoch s + 1). apply set_same.
    + destruct (e_pubs s i) eqn:P; try discriminate. injection E as <- <-. cbn in *. split.
      * intros i' v'. unfold set. destruct (Nat.eqb i' i); [discriminate|apply HV].
      * left. exact (HV i v P).
    + destruct (e_pubs s i) eqn:P; try discriminate. injection E as <- <-. cbn in *. split.
      * intros i' v'. unfold set. destruct (Nat.eqb i' i); [discriminate|apply HV].
      * destruct HE as [HE|(i' & v & X)]; [left; exact HE|right]. exists i', v. rewrite set_other; [exact X|intros ->; congruence].
    + destruct (lstep Metadata (e_value s) x (e_lis s i)) as [[l r']|]; [|discriminate]. injection E as <- <-. exact (conj HV HE).
    + destruct (l_at (e_lis s i)); try discriminate. injection E as <- <-. exact (conj HV HE).
Qed.
Lemma quiet_epoch s : one_writer s -> quiet s -> e_value s = e_epoch s.
Proof.
  intros H Q. destruct (one_writer_ok s H) as (_ & [HE|(i & v & X)]); [exact HE|]. destruct (Q i). unfold active. rewrite X. discriminate.
Qed.
Lemma meta_left s j : one_writer s -> left_waiting s j -> last_seen s j < e_epoch s -> exists i, active s i.
Proof.
  intros H W L. destruct (reachable_good _ _ _ (one_writer_reachable s H) j W) as [X|(i & X)].
  - cbn in X. apply Z.ltb_ge in X. destruct (one_writer_ok s H) as (_ & [HE|(i & v & Y)]); [lia|].
    exists i. unfold active. rewrite Y. discriminate.
  - exists i. unfold active. rewrite X. discriminate.
Qed.
Lemma meta_delivered s j l s' rs : one_writer s -> quiet s -> last_seen s j < e_epoch s ->
  exec Metadata s l = Some (s', rs) -> Forall (listening j) l -> (2 <= steps_of j l)%nat -> returned j rs <> [].
Proof.
  intros H Q L E F N. destruct (delivered Metadata 0 s j l s' rs (one_writer_reachable s H) Q) as (vs & X); try assumption.
  - cbn. apply Z.ltb_lt. rewrite (quiet_epoch s H Q). exact L.
  - rewrite X. discriminate.
Qed.
Lemma meta_sync s j s' r : estep Metadata s (Sync j) = Some (s', r) -> last_seen s' j = e_epoch s'.
Proof.
  cbn. unfold last_seen. destruct (l_at (e_lis s j)); try discriminate. intros E. injection E as <- _. cbn. rewrite set_same. reflexivity.
Qed.

(** * The replicas of which a follower is to be told *)

Section Pending.
Context {R : Type} (req : R -> R -> bool).
Notation pending := (pending (R := R)).
Notation paction := (paction (R := R)).

Lemma pexec_app (s : pending) l1 l2 s' : pexec req s (l1 ++ l2) = Some s' <-> exists s1, pexec req s l1 = Some s1 /\ pexec req s1 l2 = Some s'.
Proof.
  revert s. induction l1 as [|a l1 IH]; intros s; cbn.
  - split; [intros H; exists s; split; [reflexivity|exact H]|intros (s1 & H & H'); injection H as <-; exact H'].
  - destruct (pstep req s a) as [s1|]; [apply IH|]. split; [discriminate|intros (s1 & H & _); discriminate].
Qed.
Lemma preachable_ind_ (P : pending -> Prop) : P new_pending ->
  (forall s a s', P s -> pstep req s a = Some s' -> P s') -> forall s, preachable req s -> P s.
Proof.
  intros H0 HS s (l & H). revert s H. induction l as [|a l IH] using rev_ind; intros s H.
  - injection H as <-. exact H0.
  - apply pexec_app in H. destruct H as (s1 & H1 & H2). cbn in H2. destruct (pstep req s1 a) as [s2|] eqn:E; [|discriminate].
    injection H2 as ->. exact (HS s1 a s (IH _ H1) E).
Qed.

Definition handler_last (h : where_h) : Z := match h with HListen l | HDrain l => l_last l | HGone => 0 end.
(** Someone has inserted and not yet counted. *)
Definition uncounted (a : option (task * where_a)) : Prop :=
  match a with Some (_, AInserted) | Some (_, ALoaded _) => True | _ => False end.
Definition counted_ (s : pending) : Prop :=
  match p_handler s with HDrain _ => True | h => handler_last h < p_value s end.
Definition pgood (s : pending) : Prop :=
  0 <= handler_last (p_handler s) <= p_value s
  /\ (forall i v, p_adder s = Some (i, ALoaded v) -> v = p_value s + 1)
  /\ (p_set s <> [] -> uncounted (p_adder s) \/ counted_ s)
  /\ (forall l, p_handler s = HListen l -> l_at l = LWaiting false ->
       l_last l = p_value s \/ exists i, p_adder s = Some (i, AStored))
  /\ (forall l, p_handler s = HDrain l -> l_at l = LOut).

Lemma pstep_good s a s' : pgood s -> pstep req s a = Some s' -> pgood s'.
Proof.
  intros (H1 & H2 & H3 & H4 & H5) E. unfold pgood, counted_ in *. destruct s as [st v ad h told]. cbn in *.
  destruct a as [i r| | | | |x| |]; cbn in E.
  - destruct ad; [discriminate|]. injection E as <-. cbn. split; [exact H1|]. split; [discriminate|]. split; [left; exact I|].
    split; [|exact H5]. intros l Hl A. destruct (H4 l Hl A) as [X|(i' & X)]; [left; exact X|discriminate].
  - destruct ad as [[i []]|]; try discriminate. injection E as <-. cbn. split; [exact H1|]. split; [intros i' v' X; injection X as <- <-; reflexivity|].
    split; [left; exact I|]. split; [|exact H5]. intros l Hl A. destruct (H4 l Hl A) as [X|(i' & X)]; [left; exact X|discriminate].
  - destruct ad as [[i []]|]; try discriminate. injection E as <-. cbn. rewrite (H2 i v0 eq_refl). split; [lia|]. split; [discriminate|].
    split; [intros _; right; destruct h; cbn in *; try exact I; lia|]. split; [|exact H5]. intros l Hl A. right. exists i. reflexivity.
  - destruct ad as [[i []]|]; try discriminate. injection E as <-. cbn. split; [destruct h; exact H1|]. split; [discriminate|].
    split; [intros X; right; destruct (H3 X) as [[]|Y]; destruct h; exact Y|]. split.
    + intros l Hl A. destruct h as [l0| |]; try discriminate. injection Hl as <-. destruct (notified_at _ A).
    + intros l Hl. apply H5. destruct h; try discriminate. exact Hl.
  - destruct h; try (destruct ad as [[? []]|]; discriminate).
    assert (E' : s' = mkP st v ad (HListen new_listener) told) by (destruct ad as [[? []]|]; injection E as <-; reflexivity). subst s'. cbn in *.
    split; [exact H1|]. split; [exact H2|]. split; [exact H3|]. split; [|discriminate].
    intros l Hl A. injection Hl as <-. discriminate.
  - destruct h as [l| |]; try (destruct ad as [[? []]|]; discriminate). cbn in *.
    assert (E' : exists l' r, lstep Offsets v x l = Some (l', r)
              /\ s' = mkP st v ad (match r with Some _ => HDrain l' | None => HListen l' end) told).
    { destruct (lstep Offsets v x l) as [[l' [w|]]|]; [| |destruct ad as [[? []]|]; discriminate];
        (eexists; eexists; split; [reflexivity|destruct ad as [[? []]|]; injection E as <-; reflexivity]). }
    clear E. destruct E' as (l' & r & L & ->). cbn.
    assert (X : (r <> None /\ l_last l' = v /\ l_at l' = LOut) \/ (r = None /\ l_last l' = l_last l
                 /\ (l_at l' = LWaiting false -> l_last l' = v))).
    { unfold lstep in L. destruct x, (l_at l) as [| |n|n|]; try discriminate; try (destruct n; try discriminate);
        try (destruct (is_new Offsets v (l_last l)) eqn:Q); injection L as <- <-; cbn;
        try (left; split; [discriminate|split; reflexivity]); right; (split; [reflexivity|]); (split; [reflexivity|]); try discriminate;
        intros _; cbn in Q; apply negb_false_iff, Z.eqb_eq in Q; lia. }
    destruct X as [(Hr & HL & HO)|(-> & HL & HW)].
    + destruct r as [w|]; [|destruct (Hr eq_refl)]. cbn. rewrite HL. split; [lia|]. split; [exact H2|]. split; [intros _; right; exact I|].
      split; [discriminate|intros l0 X; injection X as <-; exact HO].
    + cbn. rewrite HL. split; [exact H1|]. split; [exact H2|]. split; [exact H3|].
      split; [|discriminate]. intros l0 Hl A. injection Hl as <-. left. exact (HW A).
  - destruct ad as [[? []]|], h; try discriminate. injection E as <-. cbn in *. split; [exact H1|]. split; [discriminate|].
    split; [intros X; destruct (X eq_refl)|]. split; [|discriminate]. intros l0 Hl A. injection Hl as <-. rewrite (H5 _ eq_refl) in A. discriminate A.
  - destruct h as [l| |]; try (destruct ad as [[? []]|]; discriminate). cbn in *.
    assert (E' : s' = mkP st v ad HGone told).
    { destruct (l_at l); try (destruct ad as [[? []]|]; discriminate); destruct ad as [[? []]|]; injection E as <-; reflexivity. }
    subst s'. cbn. split; [lia|]. split; [exact H2|]. split; [intros X; destruct (H3 X) as [Y|Y]; [left; exact Y|right; lia]|split; discriminate].
Qed.
Lemma preachable_good s : preachable req s -> pgood s.
Proof.
  apply preachable_ind_; [|exact pstep_good]. unfold pgood. cbn. split; [lia|]. split; [discriminate|]. split; [intros X; destruct (X eq_refl)|split; discriminate].
Qed.

Lemma pending_left s l : preachable req s -> p_handler s = HListen l -> l_at l = LWaiting false -> p_set s <> [] -> p_adder s <> None.
Proof.
  intros Rs Hl A N. destruct (preachable_good s Rs) as (_ & _ & H3 & H4 & _). destruct (H4 l Hl A) as [X|(i & X)]; [|congruence].
  destruct (H3 N) as [Y|Y]; [intros Z; rewrite Z in Y; exact Y|]. unfold counted_ in Y. rewrite Hl in Y. cbn in Y. lia.
Qed.

(** How many steps the connection is from having drained. *)
Definition paway (h : where_h) : nat :=
  match h with HListen l => S (away (l_at l)) | HDrain _ => 1 | HGone => 0 end.
Lemma pending_told l : forall s s', pexec req s l = Some s' -> Forall goes_on l -> p_adder s = None -> p_set s <> [] ->
  p_handler s <> HGone -> (forall x, p_handler s = HListen x -> l_last x < p_value s /\ l_at x <> LWaiting false) -> (paway (p_handler s) <= length l)%nat ->
  incl (p_told s ++ p_set s) (p_told s').
Proof.
  assert (grow : forall l s s', pexec req s l = Some s' -> Forall goes_on l -> incl (p_told s) (p_told s')).
  { clear l. induction l as [|a l IH]; intros s s' E F; cbn in E; [injection E as <-; apply incl_refl|].
    destruct (pstep req s a) as [s1|] eqn:E1; [|discriminate]. inversion F as [|? ? Fa Fl]. subst.
    intros r Hr. refine (IH s1 s' E Fl r _). destruct s as [st v ad h told]. destruct a; try (exfalso; exact Fa); cbn in E1.
    - assert (X : p_told s1 = told).
      { destruct h; try (destruct ad as [[? []]|]; discriminate).
        destruct (lstep Offsets v a l0) as [[l' [w|]]|]; destruct ad as [[? []]|]; try discriminate; injection E1 as <-; reflexivity. }
      replace (p_told s1) with told by (symmetry; exact X). exact Hr.
    - destruct ad as [[? []]|], h; try discriminate. injection E1 as <-. cbn. apply in_or_app. left. exact Hr. }
  induction l as [|a l IH]; intros s s' E F Ha Hs Hg Hl N; cbn in E.
  - destruct (p_handler s) eqn:X; cbn in N; [lia|lia|destruct (Hg eq_refl)].
  - destruct (pstep req s a) as [s1|] eqn:E1; [|discriminate]. inversion F as [|? ? Fa Fl]. subst.
    destruct s as [st v ad h told]. cbn in *. subst ad. destruct a; try (exfalso; exact Fa); cbn in E1.
    + destruct h as [y| |]; try discriminate. destruct (Hl y eq_refl) as [Hy Hw].
      assert (Q : is_new Offsets v (l_last y) = true) by (cbn; apply negb_true_iff, Z.eqb_neq; lia).
      destruct (lstep Offsets v a y) as [[l' r]|] eqn:L; [|discriminate].
      assert (X : (exists w, r = Some w) \/ (r = None /\ l_last l' = l_last y /\ l_at l' <> LWaiting false /\ (away (l_at l') < away (l_at y))%nat)).
      { unfold lstep in L. destruct a, (l_at y) as [| |n|n|]; try discriminate; try (destruct n; try discriminate);
          try (rewrite Q in L); injection L as <- <-; try (left; eexists; reflexivity); try (destruct (Fa eq_refl));
          right; cbn; (split; [reflexivity|]); (split; [reflexivity|]); (split; [discriminate|cbn; lia]). }
      destruct X as [(w & ->)|(-> & HL & HW & HA)]; injection E1 as <-.
      * apply (IH _ s' E Fl); cbn; try assumption; try reflexivity; try discriminate. pose proof (away_1 (l_at y)). unfold paway in N. unfold away in *. lia.
      * apply (IH _ s' E Fl); cbn; try assumption; try reflexivity; try discriminate; [|unfold paway in N; unfold away in *; lia].
        intros x X. injection X as <-. rewrite HL. split; [exact Hy|exact HW].
    + destruct h; try discriminate. injection E1 as <-. exact (grow l _ s' E Fl).
Qed.
Lemma pending_delivered s l s' : preachable req s -> p_adder s = None -> p_handler s <> HGone ->
  pexec req s l = Some s' -> Forall goes_on l -> (3 <= length l)%nat -> incl (p_set s) (p_told s').
Proof.
  intros Rs Ha Hg E F N r Hr. assert (Hs : p_set s <> []) by (intros X; rewrite X in Hr; destruct Hr).
  destruct (preachable_good s Rs) as (_ & _ & H3 & H4 & _).
  apply (pending_told l s s' E F Ha Hs Hg).
  - intros x Hx. destruct (H3 Hs) as [Y|Y]; [rewrite Ha in Y; destruct Y|]. unfold counted_ in Y. rewrite Hx in Y. cbn in Y.
    split; [exact Y|]. intros W. destruct (H4 x Hx W) as [Z|(i & Z)]; [lia|congruence].
  - destruct (p_handler s) as [x| |]; cbn; [|lia|lia]. pose proof (away_3 (l_at x)). lia.
  - apply in_or_app. right. exact Hr.
Qed.
Lemma pending_can s : preachable req s -> p_adder s = None -> p_set s <> [] -> p_handler s <> HGone ->
  exists a, goes_on a /\ pstep req s a <> None.
Proof.
  intros Rs Ha Hs Hg. destruct (preachable_good s Rs) as (_ & _ & H3 & H4 & _).
  destruct s as [st v ad h told]. cbn in *. subst ad. destruct h as [y|y|]; [| |destruct (Hg eq_refl)].
  - assert (W : l_at y <> LWaiting false) by (intros W; exact (pending_left _ y Rs eq_refl W Hs eq_refl)).
    exists (HStep match l_at y with LOut => Check | LChecked => Register | LRegistered _ => Recheck | LWaiting _ => Wake | LWoken => Read end).
    split; [destruct (l_at y); discriminate|]. cbn. unfold lstep.
    destruct (l_at y) as [| |n|[]|] eqn:A; try (destruct (W eq_refl)); try (destruct (is_new Offsets v (l_last y))); discriminate.
  - exists Drain. split; [exact I|discriminate].
Qed.

(** Nothing is lost: what was added has been told or is still in the set. *)
Context (REQ : forall a b, req a b = true <-> a = b).
Lemma insert_once_In r l x : In x (insert_once req r l) <-> x = r \/ In x l.
Proof.
  unfold insert_once. destruct (existsb (req r) l) eqn:E.
  - apply existsb_exists in E. destruct E as (y & Hy & E). apply REQ in E. subst y. split; [right; assumption|]. intros [->|H]; assumption.
  - rewrite in_app_iff. cbn. intuition auto.
Qed.
Lemma pstep_kept s a s' r : pstep req s a = Some s' ->
  (In r (p_told s' ++ p_set s') <-> In r (p_told s ++ p_set s) \/ exists i, a = Insert i r).
Proof.
  intros E. destruct s as [st v ad h told]. rewrite !in_app_iff. destruct a as [i x| | | | |x| |]; cbn in E.
  - destruct ad; [discriminate|]. injection E as <-. cbn. rewrite insert_once_In. split.
    + intros [H|[->|H]]; [left; left; exact H|right; exists i; reflexivity|left; right; exact H].
    + intros [[H|H]|(i' & H)]; [left; exact H|right; right; exact H|right; left; congruence].
  - destruct ad as [[? []]|]; try discriminate; injection E as <-; cbn; (split; [left; assumption|intros [H|(? & H)]; [exact H|discriminate]]).
  - destruct ad as [[? []]|]; try discriminate; injection E as <-; cbn; (split; [left; assumption|intros [H|(? & H)]; [exact H|discriminate]]).
  - destruct ad as [[? []]|]; try discriminate; injection E as <-; cbn; (split; [left; assumption|intros [H|(? & H)]; [exact H|discriminate]]).
  - destruct ad as [[? []]|], h; try discriminate; injection E as <-; cbn; (split; [left; assumption|intros [H|(? & H)]; [exact H|discriminate]]).
  - destruct h as [l| |]; try (destruct ad as [[? []]|]; discriminate).
    destruct (lstep Offsets v x l) as [[l' [w|]]|]; destruct ad as [[? []]|]; try discriminate; injection E as <-; cbn;
      (split; [left; assumption|intros [H|(? & H)]; [exact H|discriminate]]).
  - destruct ad as [[? []]|], h; try discriminate. injection E as <-. cbn. rewrite in_app_iff.
    split; [intros [[H|H]|[]]; left; [left; exact H|right; exact H]|intros [[H|H]|(? & H)]; [left; left; exact H|left; right; exact H|discriminate]].
  - destruct h as [l| |]; try (destruct ad as [[? []]|]; discriminate).
    destruct (l_at l); destruct ad as [[? []]|]; try discriminate; injection E as <-; cbn;
      (split; [left; assumption|intros [H|(? & H)]; [exact H|discriminate]]).
Qed.
Lemma pending_kept l s r : pexec req new_pending l = Some s ->
  (In r (p_told s ++ p_set s) <-> exists i, In (Insert i r) l).
Proof.
  revert s. induction l as [|a l IH] using rev_ind; intros s H.
  - injection H as <-. cbn. split; [intros []|intros (i & [])].
  - apply pexec_app in H. destruct H as (s1 & H1 & H2). cbn in H2. destruct (pstep req s1 a) as [s2|] eqn:E; [|discriminate].
    injection H2 as ->. rewrite (pstep_kept s1 a s r E), (IH s1 H1). split.
    + intros [(i & H)|(i & ->)]; exists i; apply in_or_app; [left; exact H|right; left; reflexivity].
    + intros (i & H). apply in_app_or in H. destruct H as [H|[->|[]]]; [left; exists i; exact H|right; exists i; reflexivity].
Qed.
End Pending.

(** A listener that waits goes on waiting until it is notified. *)
Lemma waits k j l : forall s s' rs, left_waiting s j -> Forall (undisturbed j) l -> exec k s l = Some (s', rs) -> left_waiting s' j /\ returned j rs = [].
Proof.
  induction l as [|a l IH]; intros s s' rs W U E; cbn [exec] in E; [injection E as <- <-; split; [exact W|reflexivity]|].
  inversion U as [|? ? Ua Ul]; subst. destruct (estep k s a) as [[s1 r]|] eqn:ES; [|discriminate].
  destruct (exec k s1 l) as [[s2 rs2]|] eqn:EX; [|discriminate]. injection E as <- <-.
  assert (W1 : left_waiting s1 j /\ match r with Some (i, _) => i <> j | None => True end).
  { unfold left_waiting in *. destruct a as [i v|i|i|i|i|i x|i]; cbn [estep] in ES; cbn in Ua; try contradiction.
    - destruct k; [| |discriminate]; destruct (e_pubs s i); inversion ES; subst; split; auto.
    - destruct k; [|discriminate|discriminate]; destruct (e_pubs s i); inversion ES; subst; split; auto.
    - destruct k; [discriminate|discriminate|]; destruct (e_pubs s i); inversion ES; subst; split; auto.
    - destruct (e_pubs s i); inversion ES; subst; split; auto.
    - destruct (lstep k (e_value s) x (e_lis s i)) as [[l1 r1]|] eqn:LS; [|discriminate]. injection ES as <- <-. cbn [e_lis]. unfold set.
      destruct (Nat.eqb_spec j i) as [->|NE]; [|split; [exact W|destruct r1; cbn; [congruence|exact Logic.I]]].
      exfalso. specialize (Ua eq_refl). unfold lstep in LS. rewrite W in LS. destruct x; try discriminate. congruence.
    - destruct k; [discriminate|discriminate|]. destruct (l_at (e_lis s i)) eqn:LA; try discriminate. injection ES as <- <-. cbn [e_lis]. unfold set.
      destruct (Nat.eqb_spec j i) as [->|NE]; [congruence|]. split; auto. }
  destruct W1 as (W1 & R1). destruct (IH _ _ _ W1 Ul EX) as (A & B). split; [exact A|].
  destruct r as [[i v]|]; [|exact B]. unfold returned in *. cbn [filter fst]. destruct (Nat.eqb_spec i j); [contradiction|exact B].
Qed.
