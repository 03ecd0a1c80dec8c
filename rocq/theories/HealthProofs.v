From Verif Require Import Base EventModel HealthModel HealthSpec.
From Coq Require Import Lia.

(** ** Lists of connections *)

Lemma nth_set_at : forall l i w j,
  nth_error (set_at l i w) j =
  if Nat.eqb j i then option_map (fun c => mkK (k_spu c) w) (nth_error l i) else nth_error l j.
Proof.
  intros l i w j; unfold set_at.
  destruct (nth_error l i) as [c|] eqn:E.
  - assert (L : (i < length l)%nat) by (apply nth_error_Some; congruence).
    assert (LF : length (firstn i l) = i) by (rewrite firstn_length; lia).
    destruct (Nat.eqb_spec j i) as [->|N].
    + rewrite nth_error_app2, LF, Nat.sub_diag by lia. reflexivity.
    + destruct (Nat.lt_ge_cases j i) as [L'|L'].
      * rewrite nth_error_app1 by lia.
        rewrite <- (firstn_skipn i l) at 2. rewrite nth_error_app1 by lia. reflexivity.
      * rewrite nth_error_app2 by lia. rewrite LF.
        destruct (j - i)%nat as [|m] eqn:EM; [lia|]. cbn.
        rewrite <- (firstn_skipn (S i) l) at 2.
        assert (LF' : length (firstn (S i) l) = S i) by (rewrite firstn_length; lia).
        rewrite nth_error_app2 by lia. rewrite LF'. f_equal. lia.
  - destruct (Nat.eqb_spec j i) as [->|N]; [exact E|reflexivity].
Qed.

Lemma nth_app_one : forall (l : list conn) c j x,
  nth_error (l ++ [c]) j = Some x -> nth_error l j = Some x \/ (j = length l /\ x = c).
Proof.
  intros l c j x H. destruct (Nat.lt_ge_cases j (length l)) as [L|L].
  - left. rewrite nth_error_app1 in H by lia. exact H.
  - rewrite nth_error_app2 in H by lia.
    destruct (j - length l)%nat as [|m] eqn:E; cbn in H.
    + right. split; [lia|congruence].
    + destruct m; discriminate.
Qed.

Lemma nth_app_old : forall (l : list conn) c j x, nth_error l j = Some x -> nth_error (l ++ [c]) j = Some x.
Proof.
  intros l c j x H. rewrite nth_error_app1; [exact H|]. apply nth_error_Some. congruence.
Qed.
Lemma nth_app_new : forall (l : list conn) c, nth_error (l ++ [c]) (length l) = Some c.
Proof. intros l c. rewrite nth_error_app2, Nat.sub_diag by lia. reflexivity. Qed.

(** ** The table agrees with the connections *)

Definition up_conn (c : conn) : Prop :=
  match k_at c with
  | KLoad true | KStore true _ | KNotify true | KServing | KInsert false => True
  | _ => False
  end.
Definition has_up (s : health) (k : Z) : Prop :=
  exists i c, nth_error (h_conns s) i = Some c /\ k_spu c = k /\ up_conn c.

(** a server noted as up has such a connection; one without an entry only has
    connections that are about to make one *)
Definition table_inv (s : health) : Prop :=
  (forall k, h_map s k = Some true -> has_up s k) /\
  (forall k, h_map s k = None -> forall i c, nth_error (h_conns s) i = Some c -> k_spu c = k -> k_at c = KInsert true).

Ltac nset H :=
  rewrite nth_set_at in H;
  match type of H with
  | context [Nat.eqb ?a ?b] => destruct (Nat.eqb_spec a b)
  end.

(* every step leaves the table and the connections alone, except those of tasks *)
Inductive touch (s s' : health) : Prop :=
| t_same : h_map s' = h_map s -> h_conns s' = h_conns s -> h_value s' = h_value s -> touch s s'
| t_new : forall k, known k (h_spus s) = true -> s' = with_conns s (h_conns s ++ [mkK k (KInsert true)]) -> touch s s'
| t_end : forall i k, nth_error (h_conns s) i = Some (mkK k KServing) ->
    s' = with_conns s (set_at (h_conns s) i (KInsert false)) -> touch s s'
| t_task : forall i, task_step s i = Some s' -> touch s s'.

Lemma touches : forall s a s', hstep s a = Some s' -> touch s s'.
Proof.
  intros s a s' H; destruct a; cbn in H.
  - destruct (known s0 (h_spus s)) eqn:E; [|discriminate]. injection H as <-. eapply t_new; [exact E|reflexivity].
  - destruct (nth_error (h_conns s) i) as [[k w]|] eqn:E; [|discriminate].
    destruct w; try discriminate. injection H as <-. eapply t_end; [exact E|reflexivity].
  - eapply t_task; exact H.
  - destruct (known s0 (h_spus s)); [discriminate|]. injection H as <-. apply t_same; reflexivity.
  - destruct (known s0 (h_spus s)); [|discriminate]. injection H as <-. apply t_same; reflexivity.
  - destruct (h_at s); try discriminate. injection H as <-. apply t_same; reflexivity.
  - destruct (h_at s); try discriminate. injection H as <-. apply t_same; reflexivity.
  - destruct (h_at s) as [| |[|[k st] l]|]; try discriminate.
    destruct (known k (h_spus s)); [|discriminate]. injection H as <-. apply t_same; reflexivity.
  - destruct (h_at s) as [| |[|e l]|]; try discriminate. injection H as <-. apply t_same; reflexivity.
  - destruct (h_late s) as [|[k st] l]; [discriminate|]. injection H as <-.
    destruct (known k (h_spus s)); apply t_same; reflexivity.
  - destruct (h_at s) as [| |[|e l]|]; try discriminate. injection H as <-. apply t_same; reflexivity.
  - destruct (h_at s); try (destruct a; discriminate).
    destruct (lstep Offsets (h_value s) a (h_lis s)) as [[l r]|] eqn:E.
    + destruct a; try discriminate; injection H as <-; apply t_same; reflexivity.
    + destruct a; discriminate.
  - destruct (h_at s); try discriminate.
    destruct (l_at (h_lis s)); try discriminate;
      (destruct (h_seen s <? h_epoch s); [|discriminate]; injection H as <-; apply t_same; reflexivity).
  - injection H as <-. apply t_same; reflexivity.
Qed.

Lemma table_step : forall s a s', table_inv s -> hstep s a = Some s' -> table_inv s'.
Proof.
  intros s a s' [UP NONE] H. destruct (touches _ _ _ H) as [EM EC EV|k _ ->|i k EI ->|i T].
  - unfold table_inv, has_up. rewrite EM, EC. split; assumption.
  - split.
    + intros k' E. cbn in E. destruct (UP _ E) as (i & c & N & EK & U).
      exists i, c. split; [|auto]. cbn. apply nth_app_old, N.
    + intros k' E i c N EK. cbn in E, N. destruct (nth_app_one _ _ _ _ N) as [N'|[_ ->]].
      * eapply NONE; eassumption.
      * reflexivity.
  - split.
    + intros k' E. cbn in E. destruct (UP _ E) as (j & c & N & EK & U).
      destruct (Nat.eqb_spec j i) as [->|NE].
      * exists i, (mkK k (KInsert false)). cbn. rewrite nth_set_at, Nat.eqb_refl, EI. cbn.
        rewrite EI in N. injection N as <-. cbn in EK. repeat split; assumption.
      * exists j, c. cbn. rewrite nth_set_at. apply Nat.eqb_neq in NE. rewrite NE. auto.
    + intros k' E j c N EK. cbn in E, N. nset N.
      * rewrite EI in N. cbn in N. injection N as <-. cbn in EK. subst k'.
        specialize (NONE _ E _ _ EI eq_refl). discriminate.
      * eapply NONE; eassumption.
  - unfold task_step in T. destruct (nth_error (h_conns s) i) as [c|] eqn:EI; [|discriminate].
    destruct (k_at c) as [b|b|b v|b| |] eqn:EA; try discriminate.
    + injection T as <-. split.
      * cbn. intros k' E. destruct (Z.eqb_spec k' (k_spu c)) as [EK|NE].
        -- subst k'. injection E as ->. exists i.
           eexists. cbn. rewrite nth_set_at, Nat.eqb_refl, EI. cbn.
           split; [reflexivity|]. split; [reflexivity|].
           unfold up_conn; cbn. destruct (match h_map s (k_spu c) with Some _ => _ | None => _ end); exact I.
        -- destruct (UP _ E) as (j & x & N & EK & U).
           exists j, x. cbn. rewrite nth_set_at.
           destruct (Nat.eqb_spec j i) as [->|NJ]; [|auto].
           rewrite EI in N. injection N as <-. congruence.
      * cbn. intros k' E j x N EK.
        destruct (Z.eqb_spec k' (k_spu c)) as [EK'|NE]; [discriminate|].
        nset N.
        -- rewrite EI in N. cbn in N. injection N as <-. cbn in EK. congruence.
        -- eapply NONE; eassumption.
    + injection T as <-. split.
      * cbn. intros k' E. destruct (UP _ E) as (j & x & N & EK & U).
        destruct (Nat.eqb_spec j i) as [->|NJ].
        -- rewrite EI in N. injection N as <-. exists i. eexists. cbn. rewrite nth_set_at, Nat.eqb_refl, EI. cbn.
           split; [reflexivity|]. split; [exact EK|]. unfold up_conn in *. rewrite EA in U. cbn. exact U.
        -- exists j, x. cbn. rewrite nth_set_at. apply Nat.eqb_neq in NJ. rewrite NJ. auto.
      * cbn. intros k' E j x N EK. nset N.
        -- rewrite EI in N. cbn in N. injection N as <-. cbn in EK.
           specialize (NONE _ E _ _ EI EK). congruence.
        -- eapply NONE; eassumption.
    + injection T as <-. split.
      * cbn. intros k' E. destruct (UP _ E) as (j & x & N & EK & U).
        destruct (Nat.eqb_spec j i) as [->|NJ].
        -- rewrite EI in N. injection N as <-. exists i. eexists. cbn. rewrite nth_set_at, Nat.eqb_refl, EI. cbn.
           split; [reflexivity|]. split; [exact EK|]. unfold up_conn in *. rewrite EA in U. cbn. exact U.
        -- exists j, x. cbn. rewrite nth_set_at. apply Nat.eqb_neq in NJ. rewrite NJ. auto.
      * cbn. intros k' E j x N EK. nset N.
        -- rewrite EI in N. cbn in N. injection N as <-. cbn in EK.
           specialize (NONE _ E _ _ EI EK). congruence.
        -- eapply NONE; eassumption.
    + injection T as <-. split.
      * cbn. intros k' E. destruct (UP _ E) as (j & x & N & EK & U).
        destruct (Nat.eqb_spec j i) as [->|NJ].
        -- rewrite EI in N. injection N as <-. exists i. eexists. cbn. rewrite nth_set_at, Nat.eqb_refl, EI. cbn.
           split; [reflexivity|]. split; [exact EK|]. unfold up_conn in *. rewrite EA in U. cbn.
           destruct b; exact U.
        -- exists j, x. cbn. rewrite nth_set_at. apply Nat.eqb_neq in NJ. rewrite NJ. auto.
      * cbn. intros k' E j x N EK. nset N.
        -- rewrite EI in N. cbn in N. injection N as <-. cbn in EK.
           specialize (NONE _ E _ _ EI EK). congruence.
        -- eapply NONE; eassumption.
Qed.

(** with one connection per server: a connection that is up is noted as up *)
Definition single_inv (s : health) : Prop :=
  forall i c, nth_error (h_conns s) i = Some c -> up_conn c -> h_map s (k_spu c) = Some true.

Lemma up_live : forall s i c, nth_error (h_conns s) i = Some c -> up_conn c -> live s i (k_spu c).
Proof.
  intros s i [k w] N U. exists w. split; [exact N|]. intros ->. exact U.
Qed.

Lemma single_step : forall s a s', single_inv s -> one_connection s -> hstep s a = Some s' -> single_inv s'.
Proof.
  intros s a s' SI ONE H. destruct (touches _ _ _ H) as [EM EC EV|k _ ->|i k EI ->|i T].
  - unfold single_inv. rewrite EM, EC. exact SI.
  - intros j c N U. cbn in *. destruct (nth_app_one _ _ _ _ N) as [N'|[_ ->]].
    + eapply SI; eassumption.
    + destruct U.
  - intros j c N U. cbn in *. nset N.
    + rewrite EI in N. cbn in N. injection N as <-. cbn.
      apply (SI _ _ EI). exact I.
    + eapply SI; eassumption.
  - unfold task_step in T. destruct (nth_error (h_conns s) i) as [c|] eqn:EI; [|discriminate].
    destruct (k_at c) as [b|b|b v|b| |] eqn:EA; try discriminate; injection T as <-;
      intros j x N U; cbn in *; nset N.
    + rewrite EI in N. cbn in N. injection N as <-. cbn. rewrite Z.eqb_refl. cbn in U.
      destruct b; [reflexivity|]. exfalso. unfold up_conn in U; cbn in U.
      destruct (match h_map s (k_spu c) with Some _ => _ | None => _ end); exact U.
    + destruct (Z.eqb_spec (k_spu x) (k_spu c)) as [E|NE]; [|eapply SI; eassumption].
      exfalso. apply n. eapply (ONE j i (k_spu c)).
      * rewrite <- E. eapply up_live; eassumption.
      * exists (KInsert b). destruct c as [kc wc]. cbn in EA. subst wc. split; [exact EI|discriminate].
    + rewrite EI in N. cbn in N. injection N as <-. cbn. apply (SI _ _ EI). unfold up_conn in *. rewrite EA. cbn in U. exact U.
    + eapply SI; eassumption.
    + rewrite EI in N. cbn in N. injection N as <-. cbn. apply (SI _ _ EI). unfold up_conn in *. rewrite EA. cbn in U. exact U.
    + eapply SI; eassumption.
    + rewrite EI in N. cbn in N. injection N as <-. cbn. apply (SI _ _ EI). unfold up_conn in *. rewrite EA. cbn in U.
      destruct b; [exact I|destruct U].
    + eapply SI; eassumption.
Qed.

(** ** The controller follows the table *)

Definition clean (s : health) : Prop :=
  forall k st b, In (k, st) (h_spus s) -> h_map s k = Some b -> st = as_status b.
Definition pending (c : conn) : Prop := match k_at c with KLoad _ | KStore _ _ => True | _ => False end.
Definition stale (s : health) : Prop :=
  l_last (h_lis s) < h_value s \/ exists i c, nth_error (h_conns s) i = Some c /\ pending c.

Record ctl_inv (s : health) : Prop := {
  ci_last : 0 <= h_value s /\ l_last (h_lis s) <= h_value s;
  ci_store : forall i k up v, nth_error (h_conns s) i = Some (mkK k (KStore up v)) -> v = h_value s;
  ci_wait : l_at (h_lis s) = LWaiting false ->
    h_value s = l_last (h_lis s) \/ exists i k up, nth_error (h_conns s) i = Some (mkK k (KNotify up));
  ci_seen : h_seen s <= h_epoch s;
  ci_read : forall l, h_at s = CRead l -> h_seen s = h_epoch s -> l = h_spus s;
  ci_clean : h_at s = CWrite [] \/ h_at s = CListen -> h_seen s = h_epoch s -> clean s \/ stale s }.

Lemma sync_nil : forall m l, sync_changes m l = [] ->
  forall k st b, In (k, st) l -> m k = Some b -> st = as_status b.
Proof.
  intros m l. unfold sync_changes. induction l as [|e l IH]; cbn; [contradiction|].
  intros H k st b HI HM. apply app_eq_nil in H as [H1 H2].
  destruct HI as [->|HI]; [|eapply IH; eassumption].
  unfold sync_one in H1; cbn in H1. rewrite HM in H1.
  destruct st, b; cbn in H1; try discriminate; reflexivity.
Qed.

Lemma lstep_last : forall v a l l' r, lstep Offsets v a l = Some (l', r) -> l_last l <= v -> l_last l' <= v.
Proof.
  intros v a l l' r H L. unfold lstep in H.
  destruct a, (l_at l) as [| |n|n|] eqn:E; try discriminate;
    try (destruct (is_new Offsets v (l_last l))); try (destruct n);
    try discriminate; injection H as <- <-; cbn; lia.
Qed.

Lemma lstep_none : forall v a l l', lstep Offsets v a l = Some (l', None) ->
  l_last l' = l_last l /\ (l_at l' = LWaiting false -> v = l_last l').
Proof.
  intros v a l l' H. unfold lstep in H.
  destruct a, (l_at l) as [| |n|n|] eqn:E; try discriminate;
    try (destruct (is_new Offsets v (l_last l)) eqn:EN); try discriminate;
    try (destruct n; try discriminate); injection H as <-; cbn; split; try reflexivity; try discriminate;
    intros _; unfold is_new in EN; apply negb_false_iff, Z.eqb_eq in EN; exact EN.
Qed.
Lemma lstep_some : forall v a l l' r, lstep Offsets v a l = Some (l', Some r) -> l_at l' = LOut.
Proof.
  intros v a l l' r H. unfold lstep in H.
  destruct a, (l_at l) as [| |n|n|] eqn:E; try discriminate;
    try (destruct (is_new Offsets v (l_last l)) eqn:EN); try discriminate;
    try (destruct n; try discriminate); injection H as <- <-; reflexivity.
Qed.

Lemma stale_conns : forall s s',
  h_lis s' = h_lis s -> h_value s' = h_value s -> h_conns s' = h_conns s -> stale s -> stale s'.
Proof. intros s s' E1 E2 E3. unfold stale. rewrite E1, E2, E3. auto. Qed.

Lemma in_nth : forall (l : list conn) c, In c l -> exists i, nth_error l i = Some c.
Proof. intros l c H. apply In_nth_error, H. Qed.

Lemma ctl_step : forall s a s', ctl_inv s -> one_increment s -> hstep s a = Some s' -> ctl_inv s'.
Proof.
  intros s a s' [CL CS CW CSE CR CC] ONE H.
  destruct a; cbn in H.
  - (* connect *)
    destruct (known s0 (h_spus s)) eqn:E; [|discriminate]. injection H as <-.
    split; cbn; try assumption.
    + intros i k up v N. destruct (nth_app_one _ _ _ _ N) as [N'|[_ N']]; [eapply CS; exact N'|discriminate].
    + intros W. destruct (CW W) as [E'|(i & k & up & N)]; [left; exact E'|right].
      exists i, k, up. apply nth_app_old, N.
    + intros W ES. destruct (CC W ES) as [C|[L|(i & c & N & P)]].
      * left; exact C.
      * right; left; exact L.
      * right; right. exists i, c. split; [apply nth_app_old, N|exact P].
  - (* end *)
    destruct (nth_error (h_conns s) i) as [[k0 w]|] eqn:E; [|discriminate].
    destruct w; try discriminate. injection H as <-.
    split; cbn; try assumption.
    + intros j k up v N. nset N.
      * rewrite E in N. cbn in N. discriminate.
      * eapply CS; exact N.
    + intros W. destruct (CW W) as [E'|(j & k & up & N)]; [left; exact E'|right].
      exists j, k, up. rewrite nth_set_at. destruct (Nat.eqb_spec j i) as [->|NE]; [|exact N].
      rewrite E in N. discriminate.
    + intros W ES. destruct (CC W ES) as [C|[L|(j & c & N & P)]].
      * left; exact C.
      * right; left; exact L.
      * right; right. exists j, c. cbn. rewrite nth_set_at. destruct (Nat.eqb_spec j i) as [->|NE]; [|auto].
        rewrite E in N. injection N as <-. destruct P.
  - (* task *)
    unfold task_step in H. destruct (nth_error (h_conns s) i) as [c|] eqn:EI; [|discriminate].
    destruct (k_at c) as [b|b|b v|b| |] eqn:EA; try discriminate; injection H as <-.
    + (* insert *)
      set (ch := match h_map s (k_spu c) with Some old => negb (Bool.eqb b old) | None => true end) in *.
      split; cbn; try assumption.
      * intros j k up v N. nset N.
        -- rewrite EI in N. cbn in N. destruct ch; [discriminate|]. destruct b; discriminate.
        -- eapply CS; exact N.
      * intros W. destruct (CW W) as [E'|(j & k & up & N)]; [left; exact E'|right].
        exists j, k, up. rewrite nth_set_at. destruct (Nat.eqb_spec j i) as [->|NE]; [|exact N].
        rewrite EI in N. injection N as ->. discriminate.
      * intros W ES. destruct ch eqn:ECH.
        -- right; right. exists i. eexists. cbn. rewrite nth_set_at, Nat.eqb_refl, EI. cbn.
           split; [reflexivity|exact I].
        -- destruct (CC W ES) as [C|[L|(j & x & N & P)]].
           ++ left. intros k st b' HI HM. cbn in HI, HM. apply (C k st b' HI).
              destruct (Z.eqb_spec k (k_spu c)) as [->|NE]; [|exact HM].
              unfold ch in ECH. destruct (h_map s (k_spu c)) as [old|]; [|discriminate].
              apply negb_false_iff, eqb_prop in ECH. congruence.
           ++ right; left; exact L.
           ++ right; right. exists j, x. cbn. rewrite nth_set_at.
              destruct (Nat.eqb_spec j i) as [->|NE]; [|auto].
              rewrite EI in N. injection N as <-. unfold pending in P. rewrite EA in P. destruct P.
    + (* load *)
      split; cbn; try assumption.
      * intros j k up v N. nset N.
        -- rewrite EI in N. cbn in N. injection N as _ _ <-. reflexivity.
        -- eapply CS; exact N.
      * intros W. destruct (CW W) as [E'|(j & k & up & N)]; [left; exact E'|right].
        exists j, k, up. rewrite nth_set_at. destruct (Nat.eqb_spec j i) as [->|NE]; [|exact N].
        rewrite EI in N. injection N as ->. discriminate.
      * intros W ES. right; right. exists i. eexists. cbn. rewrite nth_set_at, Nat.eqb_refl, EI. cbn.
        split; [reflexivity|exact I].
    + (* store *)
      assert (EV : v = h_value s).
      { destruct c as [kc wc]; cbn in EA; subst wc. eapply CS; exact EI. }
      split; cbn; try assumption.
      * lia.
      * intros j k up v' N. nset N.
        -- rewrite EI in N. cbn in N. discriminate.
        -- exfalso. apply n. apply ONE; [exists k, up, v'; exact N|].
           destruct c as [kc wc]; cbn in EA; subst wc. exists kc, b, v. exact EI.
      * intros W. right. exists i. do 2 eexists. rewrite nth_set_at, Nat.eqb_refl, EI. reflexivity.
      * intros W ES. right; left. cbn. lia.
    + (* notify *)
      split; cbn; try assumption.
      * intros j k up v' N. nset N.
        -- rewrite EI in N. cbn in N. destruct b; discriminate.
        -- eapply CS; exact N.
      * unfold notified; cbn. intros W. destruct (l_at (h_lis s)); discriminate.
      * intros W ES. destruct (CC W ES) as [C|[L|(j & x & N & P)]].
        -- left; exact C.
        -- right; left; exact L.
        -- right; right. exists j, x. cbn. rewrite nth_set_at. destruct (Nat.eqb_spec j i) as [->|NE]; [|auto].
           rewrite EI in N. injection N as <-. unfold pending in P. rewrite EA in P. destruct P.
  - destruct (known s0 (h_spus s)); [discriminate|]. injection H as <-.
    split; cbn; try assumption; try lia; intros; lia.
  - destruct (known s0 (h_spus s)); [|discriminate]. injection H as <-.
    split; cbn; try assumption; try lia; intros; lia.
  - destruct (h_at s) eqn:EA; try discriminate. injection H as <-.
    split; cbn; try assumption.
    + intros l E _. injection E as <-. reflexivity.
    + intros [E|E]; discriminate.
  - destruct (h_at s) as [|l0| |] eqn:EA; try discriminate. injection H as <-.
    split; cbn; try assumption; try discriminate.
    intros [E|E] ES; [|discriminate]. injection E as E. left.
    specialize (CR _ eq_refl ES). subst l0. intros k st b. cbn. apply (sync_nil _ _ E).
  - destruct (h_at s) as [| |[|[k st] l]|] eqn:EA; try discriminate.
    destruct (known k (h_spus s)); [|discriminate]. injection H as <-.
    split; cbn; try assumption; try lia; intros; lia.
  - destruct (h_at s) as [| |[|e l]|] eqn:EA; try discriminate. injection H as <-.
    split; cbn; try assumption; try lia; try discriminate. intros [E|E]; discriminate.
  - destruct (h_late s) as [|[k st] l]; [discriminate|]. injection H as <-.
    destruct (known k (h_spus s)).
    + split; cbn; try assumption; try lia; intros; lia.
    + split; cbn; assumption.
  - destruct (h_at s) as [| |[|e l]|] eqn:EA; try discriminate. injection H as <-.
    split; cbn; try assumption; try discriminate.
    intros _ ES. apply CC; [left; reflexivity|exact ES].
  - destruct (h_at s) eqn:EA; try (destruct a; discriminate).
    destruct (lstep Offsets (h_value s) a (h_lis s)) as [[l r]|] eqn:E; [|destruct a; discriminate].
    assert (E' : s' = mkH (h_map s) (h_value s) (h_conns s) (h_spus s) (h_epoch s)
                       (match r with Some _ => CSync | None => CListen end) (h_seen s) l (h_late s)).
    { destruct a; congruence. }
    subst s'. clear H.
    split; cbn; try assumption.
    + split; [lia|]. eapply lstep_last; [exact E|lia].
    + intros W. destruct r as [r|].
      * rewrite (lstep_some _ _ _ _ _ E) in W. discriminate.
      * destruct (lstep_none _ _ _ _ E) as [_ G]. left. apply G, W.
    + intros l0 E0. destruct r; discriminate.
    + destruct r as [r|]; [intros [E0|E0]; discriminate|].
      destruct (lstep_none _ _ _ _ E) as [EL _].
      intros _ ES. destruct (CC (or_intror eq_refl) ES) as [C|[L|P]].
      * left; exact C.
      * right; left. cbn. rewrite EL. exact L.
      * right; right. exact P.
  - destruct (h_at s) eqn:EA; try discriminate.
    assert (E' : s' = mkH (h_map s) (h_value s) (h_conns s) (h_spus s) (h_epoch s) CSync (h_epoch s)
                   (mkL (l_last (h_lis s)) LOut) (h_late s)).
    { destruct (l_at (h_lis s)); try discriminate; (destruct (h_seen s <? h_epoch s); [|discriminate]; congruence). }
    subst s'. split; cbn; try assumption; try lia; try discriminate. intros [E0|E0]; discriminate.
  - injection H as <-. split; cbn; try assumption; try lia; intros; lia.
Qed.

(** ** Along a run *)

Lemma runs_now : forall P s0 s, runs P s0 s -> P s.
Proof. intros P s0 s H; destruct H; assumption. Qed.

Lemma runs_inv : forall (P I : health -> Prop) s0,
  I s0 -> (forall s a s', I s -> P s -> hstep s a = Some s' -> I s') ->
  forall s, runs P s0 s -> I s.
Proof.
  intros P I s0 H0 HS s R. induction R as [|a s1 s2 R IH ST HP]; [exact H0|].
  eapply HS; [exact IH|exact (runs_now _ _ _ R)|exact ST].
Qed.

Lemma runs_weak : forall (P Q : health -> Prop), (forall s, P s -> Q s) ->
  forall s0 s, runs P s0 s -> runs Q s0 s.
Proof.
  intros P Q W s0 s R. induction R as [H|a s1 s2 R IH ST HP]; [apply runs_start; auto|].
  eapply runs_step; [exact IH|exact ST|auto].
Qed.

Lemma runs_table : forall P spus s, runs P (started spus) s -> table_inv s.
Proof.
  intros P spus. apply runs_inv.
  - split; cbn; [discriminate|]. intros k _ i c N. destruct i; discriminate.
  - intros s a s' HI _ ST. eapply table_step; eassumption.
Qed.
Lemma runs_single : forall (P : health -> Prop) spus s, (forall s, P s -> one_connection s) -> runs P (started spus) s -> single_inv s.
Proof.
  intros P spus s W. revert s. apply runs_inv.
  - intros i c N. destruct i; discriminate.
  - intros s a s' HI HP ST. eapply single_step; eauto.
Qed.
Lemma runs_ctl : forall (P : health -> Prop) spus s, (forall s, P s -> one_increment s) -> runs P (started spus) s -> ctl_inv s.
Proof.
  intros P spus s W. revert s. apply runs_inv.
  - split; cbn; try lia; try discriminate.
    + intros i k up v N. destruct i; discriminate.
    + intros [E|E]; discriminate.
  - intros s a s' HI HP ST. eapply ctl_step; eauto.
Qed.

Lemma rest_nth : forall s i c, Forall at_rest (h_conns s) -> nth_error (h_conns s) i = Some c -> at_rest c.
Proof. intros s i c F N. rewrite Forall_forall in F. apply F. eapply nth_error_In, N. Qed.

Lemma quiet_clean : forall s, ctl_inv s -> quiet s -> clean s.
Proof.
  intros s [CL CS CW CSE CR CC] (REST & AT & LI & SEEN).
  assert (ES : h_seen s = h_epoch s) by lia.
  destruct (CC (or_intror AT) ES) as [C|[L|(i & c & N & P)]]; [exact C| |].
  - exfalso. destruct (CW LI) as [E|(i & k & up & N)]; [lia|].
    destruct (rest_nth _ _ _ REST N) as [E|E]; discriminate.
  - exfalso. unfold pending in P. destruct (rest_nth _ _ _ REST N) as [E|E]; rewrite E in P; exact P.
Qed.

(** a server without entry keeps the status it had *)
Definition status_inv (spus : list (Z * sstatus)) (s : health) : Prop :=
  forall k, h_map s k = None ->
    (forall st, In (k, st) (h_spus s) -> st = SInit \/ In (k, st) spus) /\
    (forall st, In (k, st) (match h_at s with CRead l => l | _ => [] end) -> True) /\
    (forall st, In (k, st) (match h_at s with CWrite l => l | _ => [] end) -> False) /\
    (forall st, In (k, st) (h_late s) -> False).

Lemma in_sync : forall m l k st, In (k, st) (sync_changes m l) -> m k <> None.
Proof.
  intros m l k st H. unfold sync_changes in H. apply in_flat_map in H as ([k' st'] & _ & H).
  unfold sync_one in H. cbn in H. destruct (m k') eqn:E; [|destruct H].
  destruct (is_init st'); [destruct H as [[= <- <-]|[]]; congruence|].
  destruct (Bool.eqb (is_up st') b); [destruct H|]. destruct H as [[= <- <-]|[]]; congruence.
Qed.
Lemma in_set_status : forall k st l k' st',
  In (k', st') (set_status k st l) -> (k' = k /\ st' = st) \/ In (k', st') l.
Proof.
  intros k st l k' st' H. unfold set_status in H. apply in_map_iff in H as ([x y] & E & HI).
  cbn in E. destruct (Z.eqb_spec x k); [left; split; congruence|right; congruence].
Qed.

Lemma map_some : forall s a s' k, hstep s a = Some s' -> h_map s' k = None -> h_map s k = None.
Proof.
  intros s a s' k H E. destruct (touches _ _ _ H) as [EM EC EV|k0 _ ->|i k0 EI ->|i T]; cbn in *; try congruence.
  unfold task_step in T. destruct (nth_error (h_conns s) i) as [c|]; [|discriminate].
  destruct (k_at c); try discriminate; injection T as <-; cbn in E; try exact E.
  destruct (k =? k_spu c); [discriminate|exact E].
Qed.

Lemma status_step : forall spus s a s', status_inv spus s -> hstep s a = Some s' -> status_inv spus s'.
Proof.
  intros spus s a s' HI H k E. pose proof (map_some _ _ _ _ H E) as E0.
  destruct (HI k E0) as (S1 & _ & S3 & S4).
  assert (G : (forall st, In (k, st) (h_spus s') -> st = SInit \/ In (k, st) spus) /\
              (forall st, In (k, st) (match h_at s' with CWrite l => l | _ => [] end) -> False) /\
              (forall st, In (k, st) (h_late s') -> False)).
  { destruct a; cbn in H.
    - destruct (known s0 (h_spus s)); [|discriminate]. injection H as <-. cbn. auto.
    - destruct (nth_error (h_conns s) i) as [[k0 w]|]; [|discriminate].
      destruct w; try discriminate. injection H as <-. cbn. auto.
    - unfold task_step in H. destruct (nth_error (h_conns s) i) as [c|]; [|discriminate].
      destruct (k_at c); try discriminate; injection H as <-; cbn; auto.
    - destruct (known s0 (h_spus s)); [discriminate|]. injection H as <-. cbn. split; [|auto].
      intros st HIN. apply in_app_or in HIN as [HIN|[[= <- <-]|[]]]; auto.
    - destruct (known s0 (h_spus s)); [|discriminate]. injection H as <-. cbn. split; [|auto].
      intros st HIN. apply filter_In in HIN as [HIN _]. auto.
    - destruct (h_at s) eqn:EA; try discriminate. injection H as <-. cbn. auto.
    - destruct (h_at s) as [|l| |] eqn:EA; try discriminate. injection H as <-. cbn. split; [exact S1|]. split; [|exact S4].
      intros st HIN. apply in_sync in HIN. exact (HIN E0).
    - destruct (h_at s) as [| |[|[k0 st0] l]|] eqn:EA; try discriminate.
      destruct (known k0 (h_spus s)); [|discriminate]. injection H as <-. cbn. split; [|split; [|exact S4]].
      + intros st HIN. apply in_set_status in HIN as [[-> ->]|HIN]; [|auto].
        exfalso. apply (S3 st0). left. reflexivity.
      + intros st HIN. apply (S3 st). right. exact HIN.
    - destruct (h_at s) as [| |[|e l]|] eqn:EA; try discriminate. injection H as <-. cbn.
      split; [exact S1|]. split; [auto|]. intros st HIN. apply in_app_or in HIN as [HIN|[->|[]]]; [eauto|].
      apply (S3 st). left. reflexivity.
    - destruct (h_late s) as [|[k0 st0] l] eqn:EL; [discriminate|]. injection H as <-.
      destruct (known k0 (h_spus s)); cbn; (split; [|split; [exact S3|intros st HIN; apply (S4 st); right; exact HIN]]).
      + intros st HIN. apply in_set_status in HIN as [[-> ->]|HIN]; [|auto].
        exfalso. apply (S4 st0). left. reflexivity.
      + exact S1.
    - destruct (h_at s) as [| |[|e l]|] eqn:EA; try discriminate. injection H as <-. cbn. auto.
    - destruct (h_at s) eqn:EA; try (destruct a; discriminate).
      destruct (lstep Offsets (h_value s) a (h_lis s)) as [[l r]|] eqn:EL; [|destruct a; discriminate].
      destruct a; try discriminate; injection H as <-; cbn; (split; [exact S1|]; split; [|exact S4]); destruct r; cbn; auto.
    - destruct (h_at s) eqn:EA; try discriminate.
      destruct (l_at (h_lis s)); try discriminate; (destruct (h_seen s <? h_epoch s); [|discriminate]; injection H as <-; cbn; auto).
    - injection H as <-. cbn. auto. }
  destruct G as (G1 & G3 & G4). repeat split; auto.
Qed.
