(** A managed consumer of several partitions: what holds in all runs. *)
From Coq Require Import Sorting.Sorted.
From Verif Require Import StorageSpec RecordSpec RecordProofs StorageProofs ReplicaProofs ClusterProofs ListFacts.
From Verif Require Import ConsumerModel ConsumerSpec ConsumerProofs ConsumerClaims StreamModel StreamProofs StreamClaims StreamSpec.
From Verif Require Import ManageModel ManageSpec ManageProofs StreamSpec StreamClaims.

Notation lim p r := (log_limit (p_iso p) r).
Notation idle x := (e_wait (w_cur (q_world x)) = None).

Lemma f2_length {A B} (R : A -> B -> Prop) a b : Forall2 R a b -> length a = length b.
Proof. induction 1; cbn; congruence. Qed.

(** * Waiting for a flush *)
Lemma tick_wait due full w : e_wait (w_cur (on_tick due full w)) = e_wait (w_cur w).
Proof. unfold on_tick, auto_flush, try_flush. destruct (w_mode w); cbn; auto. destruct due; cbn; auto. destruct (_ <=? _); cbn; auto. destruct (full || _)%bool; auto. Qed.
Lemma record_wait o due full w : e_wait (w_cur (on_record o due full w)) = e_wait (w_cur w).
Proof. unfold on_record, auto_flush, try_flush. destruct (w_mode w); cbn; auto. destruct due; cbn; auto. destruct (_ <=? _); cbn; auto. destruct (full || _)%bool; auto. Qed.
Lemma note_wait x w : e_wait (w_cur w) = None -> e_wait (w_cur (on_note x w)) = None.
Proof. intros E. unfold on_note. destruct (e_queue _); [assumption|]. cbn. destruct x; cbn; try destruct (waits_for _ _); cbn; auto. Qed.
Lemma close_wait w : e_wait (w_cur (on_close w)) = None. Proof. reflexivity. Qed.
Lemma old_cur i x w : w_cur (on_old i x w) = w_cur w.
Proof. unfold on_old. destruct (nth_error _ _) as [[|]|]; reflexivity. Qed.
Lemma commit_wait w : e_wait (w_cur (on_commit w)) = e_wait (w_cur w).
Proof. unfold on_commit. destruct (w_mode w); reflexivity. Qed.

Definition waits (l : list part) (j : option (list fut)) : Prop :=
  match j with None => Forall (fun x => idle x) l | Some fs => Forall2 (fun x f => f <> Pending -> idle x) l fs end.
Lemma set_nth_ok {A} i (x : A) l y : nth_error l i = Some y -> set_nth i x l = firstn i l ++ x :: skipn (S i) l. Proof. reflexivity. Qed.
Lemma split_nth {A} i (l : list A) y : nth_error l i = Some y -> exists a b, l = a ++ y :: b /\ length a = i /\ forall x, set_nth i x l = a ++ x :: b.
Proof.
  intros E. destruct (nth_error_split _ _ E) as (a & b & -> & L). exists a, b. split; [reflexivity|]. split; [assumption|]. intros x. unfold set_nth. subst i.
  rewrite firstn_app, Nat.sub_diag, firstn_all, firstn_O, app_nil_r. f_equal. f_equal. rewrite skipn_app. rewrite skipn_all2 by lia. replace (S (length a) - length a)%nat with 1%nat by lia. reflexivity.
Qed.
Lemma waits_set l j i x y : waits l j -> nth_error l i = Some x -> (idle x -> idle y) -> waits (set_nth i y l) j.
Proof.
  intros W N K. destruct (split_nth _ _ _ N) as (a & b & -> & L & E). rewrite E. destruct j as [fs|]; cbn [waits] in *.
  - apply Forall2_app_inv_l in W as (f1 & f2 & W1 & W2 & ->). inversion W2 as [|x' f l' fs' W3 W4]; subst. apply Forall2_app; [assumption|]. constructor; auto.
  - apply Forall_app in W as (W1 & W2). inversion W2; subst. apply Forall_app. split; [assumption|]. constructor; auto.
Qed.
Lemma cancel_waits l : waits (cancel_all l) None.
Proof. cbn [waits]. unfold cancel_all. apply Forall_map. apply Forall_forall. reflexivity. Qed.

(** * A partition goes on without a record *)
Definition goes_on (x x' : part) : Prop := q_conn x' = q_conn x /\ wruns (q_world x) (q_world x') /\ aside_of (q_world x) (q_world x').
Lemma goes_none x : goes_on x x.
Proof. split; [reflexivity|]. split; [apply wruns_none|]. exists []. auto. Qed.
Lemma goes_trans x y z : goes_on x y -> goes_on y z -> goes_on x z.
Proof. intros (A & B & C) (A' & B' & C'). split; [congruence|]. split; [eapply wruns_trans; eassumption|eapply aside_trans; eassumption]. Qed.
Lemma goes_one x w over : wmove (q_world x) w -> aside_of (q_world x) w -> goes_on x (mkPart (q_conn x) w over).
Proof. intros MV AS. split; [reflexivity|]. split; [apply wruns_one; assumption|assumption]. Qed.
Lemma goes_over x over : goes_on x (mkPart (q_conn x) (q_world x) over).
Proof. split; [reflexivity|]. split; [apply wruns_none|]. exists []. auto. Qed.
Lemma goes_all l : Forall2 goes_on l l.
Proof. induction l; constructor; auto using goes_none. Qed.
Lemma goes_set l i x y : nth_error l i = Some x -> goes_on x y -> Forall2 goes_on l (set_nth i y l).
Proof.
  intros N G. destruct (split_nth _ _ _ N) as (a & b & -> & L & E). rewrite E. apply Forall2_app; [apply goes_all|]. constructor; [assumption|apply goes_all].
Qed.
Lemma goes_cancel l : Forall2 goes_on l (cancel_all l).
Proof. induction l; constructor; auto. apply goes_one; [apply w_cancel|apply cancel_aside]. Qed.
Lemma forall2_trans l l' l'' : Forall2 goes_on l l' -> Forall2 goes_on l' l'' -> Forall2 goes_on l l''.
Proof. intros A. revert l''. induction A as [|x y l l' XY A IH]; intros l'' B; inversion B; subst; constructor; [eapply goes_trans; eassumption|auto]. Qed.

Lemma commit_goes l : Forall (fun x => idle x) l -> Forall2 goes_on l (fst (commit_loop l)) /\ Forall (fun x => idle x) (fst (commit_loop l)).
Proof.
  induction l as [|x l IH]; intros F; [split; constructor|]. inversion F as [|x' l' F1 F2]; subst. destruct (IH F2) as (A & B).
  assert (goes_on x (set_world x (on_commit (q_world x)))) as G by (apply goes_one; [apply w_commit; assumption|apply commit_aside]).
  assert (idle (set_world x (on_commit (q_world x)))) as K by (cbn [set_world q_world]; rewrite commit_wait; assumption).
  cbn [commit_loop]. destruct (w_mode (q_world x)); cbn [fst]; (split; constructor; auto using goes_all).
Qed.
Lemma poll_one_ok x f x' r : (f <> Pending -> idle x) -> poll_one x f = (x', r) -> goes_on x x' /\ (r <> None -> idle x').
Proof.
  intros W. unfold poll_one. destruct f.
  - intros E. inversion E; subst. split; [apply goes_one; [apply w_flush; apply W; discriminate|apply flush_aside]|]. destruct (e_wait (w_cur (q_world (set_world x (flush_begin (q_world x)))))); [congruence|auto].
  - intros E. inversion E; subst. split; [apply goes_none|]. destruct (e_wait (w_cur (q_world x'))); [congruence|auto].
  - intros E. inversion E; subst. split; [apply goes_none|]. intros _. apply W. discriminate.
Qed.
Lemma poll_goes l : forall fs, Forall2 (fun x f => f <> Pending -> idle x) l fs -> let k := poll_join l fs in
  Forall2 goes_on l (fst (fst k)) /\ Forall2 (fun x f => f <> Pending -> idle x) (fst (fst k)) (snd (fst k)) /\ (snd k = Some true -> Forall (fun x => idle x) (fst (fst k))).
Proof.
  induction l as [|x l IH]; intros fs W; inversion W as [|x' f l' fs' W1 W2]; subst; cbn [poll_join]; [repeat constructor|].
  destruct (poll_one x f) as [x' r] eqn:P. destruct (poll_one_ok _ _ _ _ W1 P) as (G & K). destruct (IH _ W2) as (A & B & C).
  destruct r as [[|]|]; cbn [fst snd].
  - split; [constructor; assumption|]. split; [constructor; [intros _; apply K; discriminate|assumption]|]. intros E. constructor; [apply K; discriminate|auto].
  - split; [constructor; [assumption|apply goes_all]|]. split; [constructor; [intros _; apply K; discriminate|assumption]|discriminate].
  - split; [constructor; assumption|]. split; [constructor; [congruence|assumption]|]. destruct (snd (poll_join l fs')) as [[|]|]; discriminate.
Qed.

(** * Opening all partitions once more *)
Lemma reopen_nth q full l : forall i k, reopen q full i l = Some k -> length k = length l /\ forall j x', nth_error k j = Some x' ->
  exists x n, nth_error l j = Some x /\ open_part q (w_stored (q_world x)) (part_store x) = Some n /\ x' = mkPart n (on_reconnect (full (i + j)%nat) (flush_cancel (q_world x))) false.
Proof.
  induction l as [|x l IH]; intros i k E; cbn [reopen] in E.
  - inversion E. split; [reflexivity|]. intros [|j] x' N; discriminate.
  - destruct (open_part _ _ _) as [n|] eqn:O; [|discriminate]. destruct (reopen q full (S i) l) as [k'|] eqn:R; [|discriminate]. inversion E; subst. destruct (IH _ _ R) as (L & A).
    split; [cbn; congruence|]. intros [|j] x' N; cbn in N.
    + inversion N; subst. exists x, n. rewrite Nat.add_0_r. auto.
    + destruct (A _ _ N) as (y & n' & Y1 & Y2 & Y3). exists y, n'. split; [assumption|]. split; [assumption|]. rewrite Y3. replace (S i + j)%nat with (i + S j)%nat by lia. reflexivity.
Qed.
Lemma reopen_idle q full i l k : reopen q full i l = Some k -> Forall (fun x => idle x) k.
Proof.
  intros R. destruct (reopen_nth _ _ _ _ _ R) as (_ & A). apply Forall_forall. intros x IN. apply In_nth_error in IN as (j & N). destruct (A _ _ N) as (y & n & _ & _ & ->). reflexivity.
Qed.
Lemma open_first_nth m q l : forall k, open_first m q l = Some k -> length k = length l /\ forall j x, nth_error k j = Some x ->
  exists r v n, nth_error l j = Some (r, v) /\ open_part q v r = Some n /\ x = mkPart n (world0 m v) false.
Proof.
  induction l as [|[r v] l IH]; intros k E; cbn [open_first] in E.
  - inversion E. split; [reflexivity|]. intros [|j] x N; discriminate.
  - destruct (open_part _ _ _) as [n|] eqn:O; [|discriminate]. destruct (open_first m q l) as [k'|] eqn:R; [|discriminate]. inversion E; subst. destruct (IH _ eq_refl) as (L & A).
    split; [cbn; congruence|]. intros [|j] x N; cbn in N; [inversion N; subst; exists r, v, n; auto|apply A; assumption].
Qed.
Lemma given_snoc i j z g g' : g_given g' = g_given g ++ [(i, z)] -> given_by j g' = if Nat.eqb i j then given_by j g ++ [z] else given_by j g.
Proof. intros E. unfold given_by. rewrite E, filter_app, map_app. cbn. destruct (Nat.eqb i j); cbn; [reflexivity|rewrite app_nil_r; reflexivity]. Qed.

Section Group.
  Context (c : config) (p : params) (first : request) (retry : bool) (m : mode) (l : list (replica * option Z)) (g0 : group) (Hs0 : logs).
  Context (CO : config_ok c) (SM : p_sm p = None) (FIT : c_seg_max c <= p_max p) (RS : resumable first l) (ON : on_partitions c Hs0 l)
    (FR : first_run m first l = Some g0) (INS : started_inside p g0) (ONE : retry = true -> length l = 1%nat).
  Notation initially := (stored_first l).
  Notation PI_ i := (PI c p retry m (first_start g0 i) (initially i)).

  Lemma first_part i x : nth_error (g_parts g0) i = Some x -> exists r v n H, nth_error l i = Some (r, v) /\ nth_error Hs0 i = Some H /\ hist c r H /\ get_log_start r <= get_hw r
    /\ match v with Some k => 0 <= k < get_hw r | None => True end /\ open_part first v r = Some n /\ x = mkPart n (world0 m v) false /\ first_start g0 i = n_start n /\ initially i = v.
  Proof.
    intros N. unfold first_run in FR. destruct (open_first m first l) as [k|] eqn:O; [|discriminate]. inversion FR; subst g0. cbn [g_parts] in *. destruct (open_first_nth _ _ _ _ O) as (_ & A).
    destruct (A _ _ N) as (r & v & n & L & OP & ->).
    assert (exists H, nth_error Hs0 i = Some H /\ hist c r H /\ get_log_start r <= get_hw r /\ match v with Some k => 0 <= k < get_hw r | None => True end) as (H & H1 & H2 & H3 & H4).
    { clear -ON L. revert i L. unfold on_partitions in ON. induction ON as [|H [r' v'] Hs l (A & B & C) F IH]; intros [|i] L; try discriminate; [|apply IH; assumption]. inversion L; subst. exists H. auto. }
    exists r, v, n, H. unfold first_start, stored_first. cbn [g_parts]. rewrite N, L. cbn. repeat split; assumption.
  Qed.
  Lemma first_facts r H : hist c r H -> get_log_start r <= get_hw r -> 0 <= get_log_start r /\ get_hw r <= lim p r <= get_leo r /\ get_leo r < 2 ^ 63.
  Proof.
    intros HI LH. pose proof (hist_logged _ _ _ CO HI) as LG. pose proof (lim_le _ p _ _ LG). destruct LG as (old & L & _ & IV & CO' & _). assert (0 <= get_leo r < 2 ^ 63) by (eapply inv_leo63; eassumption).
    pose proof (chain_le _ _ _ CO'). lia.
  Qed.
  (** where the partition is started later, with the offset stored at first, or another *)
  Lemma later_start i x : nth_error (g_parts g0) i = Some x ->
    (forall lo hi s, 0 <= lo <= hi -> lo < 2 ^ 63 -> resolve first lo hi (consumer_position (initially i)) = Ok s -> s <= Z.max lo (first_start g0 i))
    /\ forall o lo hi s, 0 <= lo <= hi -> 0 <= o -> o + 1 < 2 ^ 63 -> resolve first lo hi (consumer_position (Some o)) = Ok s -> s <= Z.max lo (Z.max (first_start g0 i) (o + 1)).
  Proof.
    intros N. destruct (first_part _ _ N) as (r & v & n & H & L & NH & HI & LH & VK & OP & EX & -> & ->). destruct (first_facts _ _ HI LH) as (A & B & C).
    unfold open_part in OP. destruct (resolve first _ _ _) as [s0|] eqn:RV; [|discriminate]. inversion OP; subst n. cbn [open_conn n_start].
    split.
    - intros lo hi s LO LO2 E. destruct v as [k|].
      + apply (resolve_at _ l) in E; [|assumption|lia|lia|lia]. apply (resolve_at _ l) in RV; [|assumption|lia|lia|lia].
        destruct first as [a|a|a]; cbn [aim resumable] in *; lia.
      + cbn in E, RV. destruct first as [a|a|a]; cbn [resumable] in RS.
        * cbn in E, RV. inversion E; inversion RV. lia.
        * subst a. apply resolve_none in E; lia.
        * destruct RS as (_ & F). rewrite Forall_forall in F. apply nth_error_In in L. apply F in L. cbn in L. congruence.
    - intros o lo hi s LO O O2 E. apply (resolve_at _ l) in E; [|assumption|lia|lia|lia]. destruct first as [a|a|a]; cbn [aim resumable] in *; try lia.
      subst s. unfold resolve in RV. cbn in RV. inversion RV. lia.
  Qed.

  Lemma first_pos : match first with Absolute a => 0 <= a | _ => True end.
  Proof. destruct first; cbn in RS; auto. Qed.

  Record GI (Hs : logs) (g : group) : Prop := {
    G_len : length (g_parts g) = length l;
    G_len' : length Hs = length l;
    G_parts : forall i x, nth_error (g_parts g) i = Some x -> exists H M, nth_error Hs i = Some H /\ PI_ i H x (given_by i g) (g_next g) M;
    G_waits : waits (g_parts g) (g_join g) }.

  Lemma same_shape g : length (g_parts g) = length l -> forall i x, nth_error (g_parts g) i = Some x -> exists y, nth_error (g_parts g0) i = Some y.
  Proof.
    intros L i x N. assert (i < length (g_parts g0))%nat as B.
    { assert (length (g_parts g0) = length l) as ->. { unfold first_run in FR. destruct (open_first m first l) as [k|] eqn:O; [|discriminate]. inversion FR. apply (open_first_nth _ _ _ _ O). }
      rewrite <- L. apply nth_error_Some. congruence. }
    destruct (nth_error (g_parts g0) i) eqn:E; [eauto|]. apply nth_error_None in E. lia.
  Qed.
  Lemma GI_start : GI Hs0 g0.
  Proof.
    assert (g_given g0 = [] /\ g_next g0 = None /\ g_join g0 = None /\ length (g_parts g0) = length l /\ Forall (fun x => idle x) (g_parts g0)) as (E1 & E2 & E3 & E4 & E5).
    { unfold first_run in FR. destruct (open_first m first l) as [k|] eqn:O; [|discriminate]. inversion FR. cbn. repeat split; auto; [apply (open_first_nth _ _ _ _ O)|].
      apply Forall_forall. intros x IN. apply In_nth_error in IN as (j & N). destruct (open_first_nth _ _ _ _ O) as (_ & A). destruct (A _ _ N) as (? & ? & ? & _ & _ & ->). reflexivity. }
    split; [assumption|exact (f2_length _ _ _ ON)| |rewrite E3; exact E5].
    intros i x N. destruct (first_part _ _ N) as (r & v & n & H & L & NH & HI & LH & VK & OP & EX & FS & IV). rewrite E2. unfold given_by. rewrite E1. cbn [filter map]. rewrite FS, IV. exists H, (n_start n). split; [assumption|].
    unfold open_part in OP. destruct (resolve first _ _ _) as [s|] eqn:RV; [|discriminate]. inversion OP; subst n. subst x. cbn [open_conn n_start] in *.
    pose proof (proj1 (Forall_forall _ _) INS _ (nth_error_In _ _ N)) as IL. cbn in IL. unfold part_store in IL. cbn in IL. destruct (first_facts _ _ HI LH) as (A & B & C).
    assert (0 <= s) as SN. { unfold resolve in RV. destruct first; cbn [bind resumable] in *; [inversion RV; lia| |]; destruct (clamp _ _ _); cbn [bind] in RV; inversion RV; lia. }
    constructor; cbn [q_conn q_world open_conn n_start world0 w_log].
    - apply at_open; [assumption|lia|assumption].
    - exists []. cbn. symmetry. apply filter_false. intros z _. lia.
    - contradiction.
    - intros z Z1 Z2. lia.
    - contradiction.
    - reflexivity.
    - apply wruns_none.
    - auto.
  Qed.

  Lemma PI_next i H x G nx M nx' : PI_ i H x G nx M -> (retry = true -> nx' = None \/ nx' = Some M) -> PI_ i H x G nx' M.
  Proof. intros [A B C D E LO F N] K. constructor; auto. Qed.
  Lemma PI_goes i H x x' G nx M : PI_ i H x G nx M -> goes_on x x' -> PI_ i H x' G nx M.
  Proof. intros P (E & R & AS). destruct x' as [n w o]. cbn in *. subst n. apply PI_world; assumption. Qed.
  (** nothing is handed out *)
  Lemma GI_goes Hs g ps' j' lg : GI Hs g -> Forall2 goes_on (g_parts g) ps' -> waits ps' j' -> GI Hs (mkGroup ps' (g_next g) (g_given g) j' lg).
  Proof.
    intros [L1 L2 P W] F W'. split; cbn [g_parts g_next g_given g_join]; auto; [rewrite <- (f2_length _ _ _ F); assumption|].
    intros i x' N. assert (exists x, nth_error (g_parts g) i = Some x /\ goes_on x x') as (x & NX & GX).
    { clear -F N. revert i N. induction F as [|a b la lb AB F IH]; intros [|i] N; try discriminate; [inversion N; subst; exists a; auto|apply IH; assumption]. }
    destruct (P _ _ NX) as (H & M & NH & PX). exists H, M. split; [assumption|]. change (given_by i _) with (given_by i g). eapply PI_goes; eassumption.
  Qed.
  Lemma GI_reopen Hs g q nx full k lg : GI Hs g -> reopen q full 0 (g_parts g) = Some k ->
    started_inside p (mkGroup k nx (g_given g) None lg) ->
    (forall i H x M n, nth_error (g_parts g) i = Some x -> nth_error Hs i = Some H -> PI_ i H x (given_by i g) (g_next g) M -> open_part q (w_stored (q_world x)) (part_store x) = Some n -> n_start n <= lim p (part_store x) ->
       0 <= n_start n /\ n = open_conn (part_store x) (n_start n) /\ covered H (part_store x) (given_by i g) (first_start g0 i) (n_start n - 1) /\ (retry = true -> nx = None \/ nx = Some (n_start n))) ->
    GI Hs (mkGroup k nx (g_given g) None lg).
  Proof.
    intros [L1 L2 P W] R IN K. destruct (reopen_nth _ _ _ _ _ R) as (L & A). split; cbn [g_parts g_next g_given g_join]; auto; [congruence| |cbn; eapply reopen_idle; eassumption].
    intros i x' N. destruct (A _ _ N) as (x & n & NX & OP & EX). destruct (P _ _ NX) as (H & M & NH & PX).
    pose proof (proj1 (Forall_forall _ _) IN _ (nth_error_In _ _ N)) as IL. subst x'. cbn [q_conn] in IL.
    assert (n_start n <= lim p (part_store x)) as IL'. { unfold open_part in OP. destruct (resolve q _ _ _); [|discriminate]. inversion OP; subst n. exact IL. }
    destruct (K _ _ _ _ _ NX NH PX OP IL') as (S1 & S2 & S3 & S4). exists H, (n_start n). split; [assumption|]. change (given_by i _) with (given_by i g).
    eapply (PI_open c p retry m CO FIT); [exact PX|split; assumption|assumption|assumption|assumption].
  Qed.
  Lemma absolute_open a q stored r n : absolute a = Some q -> open_part q stored r = Some n -> n = open_conn r a.
  Proof.
    unfold open_part. intros AB OP. rewrite (resolve_absolute _ _ _ _ _ AB) in OP. inversion OP. reflexivity.
  Qed.

  Lemma GI_retry Hs g nx full g' : GI Hs g -> retry = true -> retry_from first nx full g = Some g' -> started_inside p g' ->
    (nx = g_next g \/ exists o, nx = Some o /\ 0 <= o /\ forall i H x M, nth_error (g_parts g) i = Some x -> nth_error Hs i = Some H -> PI_ i H x (given_by i g) (g_next g) M -> covered H (part_store x) (given_by i g) (first_start g0 i) (o - 1)) -> GI Hs g'.
  Proof.
    intros GG RT RF IN NXC. unfold retry_from in RF. destruct (reopen _ _ _ _) as [k|] eqn:R; [|discriminate]. inversion RF; subst g'. clear RF. eapply GI_reopen; eauto.
    intros i H x M n NX NH PX OP IL. destruct (same_shape _ (G_len _ _ GG) _ _ NX) as (y & NY). destruct (later_start _ _ NY) as (B1 & B2).
    assert (forall o, 0 <= o -> nx = Some o -> covered H (part_store x) (given_by i g) (first_start g0 i) (o - 1) ->
      0 <= n_start n /\ n = open_conn (part_store x) (n_start n) /\ covered H (part_store x) (given_by i g) (first_start g0 i) (n_start n - 1) /\ (retry = true -> nx = None \/ nx = Some (n_start n))) as DONE.
    { intros o O E CV. subst nx. unfold next_offset, absolute in OP. replace (o <? 0) with false in OP by lia. apply (absolute_open o) in OP; [|unfold absolute; replace (o <? 0) with false by lia; reflexivity]. subst n. cbn [open_conn n_start]. auto. }
    destruct NXC as [E|(o & E & O & CV)]; [|eauto]. subst nx. destruct (P_next _ _ _ _ _ _ _ _ _ _ _ PX RT) as [E|E].
    - rewrite E in OP. cbn [next_offset] in OP. destruct (PI_first c p first retry m CO FIT _ _ first_pos B1 B2 _ _ _ _ _ _ PX OP IL) as (A1 & A2 & A3). rewrite E. auto.
    - destruct (at_facts _ _ retry CO FIT _ _ _ (P_at _ _ _ _ _ _ _ _ _ _ _ PX)) as (_ & _ & _ & _ & _ & _ & EM & S0 & _). apply (DONE M); [lia|assumption|]. apply (P_cov _ _ _ _ _ _ _ _ _ _ _ PX).
  Qed.
  Lemma GI_step a b : gmoves c p first retry a b -> GI (fst a) (snd a) -> GI (fst b) (snd b).
  Proof.
    intros MV GG. destruct MV as [Hs g i x y NX MV|Hs g i x H a r' new NX NH OK LV EX ST LH|Hs g i due full fulls g' J HD IN|Hs g i g' LO|Hs g i x due full NX|Hs g i x o NX|Hs g i x NX|Hs g i x j o NX|Hs g J|Hs g J|Hs g|Hs g|Hs g full g' RE IN|Hs g full g' RT J RE IN]; cbn [fst snd] in *.
    - destruct GG as [L1 L2 P W]. split; cbn [set_part g_parts g_next g_given g_join]; auto; [rewrite (length_set _ _ _ _ NX); assumption| |eapply waits_set; eauto].
      intros j x' N. rewrite (nth_set _ _ _ _ _ NX) in N. destruct (Nat.eqb j i) eqn:E; [|apply P; assumption].
      apply Nat.eqb_eq in E. subst j. inversion N; subst x'. destruct (P _ _ NX) as (H & M & NH & PX). exists H, M. split; [assumption|]. apply PI_stream; assumption.
    - destruct GG as [L1 L2 P W]. split; cbn [set_part g_parts g_next g_given g_join]; auto; [rewrite (length_set _ _ _ _ NX); assumption|rewrite (length_set _ _ _ _ NH); assumption| |eapply waits_set; eauto].
      intros j x' N. rewrite (nth_set _ _ _ _ _ NX) in N. rewrite (nth_set _ _ _ _ _ NH). destruct (Nat.eqb j i) eqn:E; [|apply P; assumption].
      apply Nat.eqb_eq in E. subst j. inversion N; subst x'. destruct (P _ _ NX) as (H' & M & NH' & PX). rewrite NH in NH'. inversion NH'; subst H'. exists (H ++ new), M. split; [reflexivity|]. eapply PI_storage; eassumption.
    - unfold hand in HD. destruct (nth_error (g_parts g) i) as [x|] eqn:NX; [|discriminate]. destruct (q_over x); [discriminate|].
      destruct (nth_error (y_out _) _) as [[k|]|] eqn:NT; [| |discriminate].
      + inversion HD; subst g'. clear HD. destruct GG as [L1 L2 P W]. rewrite J in W. cbn [waits] in W.
        assert (idle x) as WX by (apply (proj1 (Forall_forall _ _) W); eapply nth_error_In; eassumption).
        split; cbn [g_parts g_next g_given g_join]; auto; [rewrite (length_set _ _ _ _ NX); assumption| |rewrite J; apply (waits_set _ None _ x); [exact W|assumption|cbn [q_world]; rewrite record_wait; auto]].
        intros j x' N. rewrite (nth_set _ _ _ _ _ NX) in N. rewrite (given_snoc i j (cr_offset k, cr_rec k) g) by reflexivity. rewrite (Nat.eqb_sym i j). destruct (Nat.eqb j i) eqn:E.
        * apply Nat.eqb_eq in E. subst j. inversion N; subst x'. destruct (P _ _ NX) as (H & M & NH & PX). destruct (PI_hand c p retry m CO SM FIT _ _ _ _ _ _ _ k due full PX WX NT) as (EK & PX'). rewrite EK in *. exists H, (M + 1). auto.
        * destruct (P _ _ N) as (H & M & NH & PX). exists H, M. split; [assumption|]. eapply PI_next; [exact PX|]. intros RT. exfalso. apply ONE in RT. apply Nat.eqb_neq in E.
          assert (i < length l)%nat by (rewrite <- L1; apply nth_error_Some; congruence). assert (j < length l)%nat by (rewrite <- L1; apply nth_error_Some; congruence). lia.
      + set (g1 := set_part i (set_world x (on_tick due full (q_world x))) g) in *.
        assert (GI Hs g1) as G1.
        { apply GI_goes; [assumption|eapply goes_set; [exact NX|apply goes_one; [apply w_tick|apply tick_aside]]|]. eapply waits_set; [apply (G_waits _ _ GG)|exact NX|]. cbn [set_world q_world]. rewrite tick_wait. auto. }
        assert (retry = true \/ retry = false) as [RT|RT] by (destruct retry; auto); rewrite RT in HD; [|inversion HD; subst g'; exact G1].
        eapply GI_retry; eauto. right. destruct (G_parts _ _ GG _ _ NX) as (H & M & NH & PX). pose proof (P_at _ _ _ _ _ _ _ _ _ _ _ PX) as PA. destruct (at_error _ _ CO SM FIT _ _ _ PA NT) as (ER1 & ER2).
        destruct (at_facts _ _ retry CO FIT _ _ _ PA) as (_ & _ & _ & _ & _ & _ & EM & S0 & _). exists (n_avail (q_conn x)). split; [reflexivity|]. split; [lia|].
        intros j H' x' M' N NH' PX'. assert (j = i) as ->.
        { pose proof (ONE RT). pose proof (G_len _ _ G1). pose proof (G_len _ _ GG). assert (i < length l)%nat by (rewrite <- H2; apply nth_error_Some; congruence). assert (j < length l)%nat by (rewrite <- H1; apply nth_error_Some; congruence). lia. }
        cbn [g1 set_part g_parts] in N. rewrite (nth_set _ _ _ _ _ NX), Nat.eqb_refl in N. inversion N; subst x'. change (part_store (set_world x _)) with (part_store x) in *. rewrite NH in NH'. inversion NH'; subst H'.
        change (given_by i g1) with (given_by i g). intros z Z1 Z2. destruct (Z.le_gt_cases (fst z) (M - 1)); [apply (P_cov _ _ _ _ _ _ _ _ _ _ _ PX); [assumption|lia]|right]. unfold part_store. lia.
    - unfold lose in LO. destruct (nth_error (g_parts g) i) as [x|] eqn:NX; [|discriminate]. destruct (y_out _); [|discriminate]. inversion LO; subst g'. apply GI_goes; [assumption|eapply goes_set; [exact NX|apply goes_over]|].
      eapply waits_set; [apply (G_waits _ _ GG)|exact NX|auto].
    - apply GI_goes; [assumption|eapply goes_set; [exact NX|apply goes_one; [apply w_tick|apply tick_aside]]|]. eapply waits_set; [apply (G_waits _ _ GG)|exact NX|]. cbn [set_world q_world]. rewrite tick_wait. auto.
    - apply GI_goes; [assumption|eapply goes_set; [exact NX|apply goes_one; [apply w_note|apply note_aside]]|]. eapply waits_set; [apply (G_waits _ _ GG)|exact NX|]. cbn [set_world q_world]. apply note_wait.
    - apply GI_goes; [assumption|eapply goes_set; [exact NX|apply goes_one; [apply w_close|apply close_aside]]|]. eapply waits_set; [apply (G_waits _ _ GG)|exact NX|]. reflexivity.
    - apply GI_goes; [assumption|eapply goes_set; [exact NX|apply goes_one; [apply w_older|apply old_aside]]|]. eapply waits_set; [apply (G_waits _ _ GG)|exact NX|]. cbn [set_world q_world]. rewrite old_cur. auto.
    - pose proof (G_waits _ _ GG) as W. rewrite J in W. destruct (commit_goes _ W) as (A & B). apply GI_goes; [assumption|exact A|]. rewrite J. exact B.
    - pose proof (G_waits _ _ GG) as W. rewrite J in W. apply GI_goes; [assumption|apply goes_all|]. cbn [waits] in *. clear -W. induction W; constructor; auto.
    - unfold poll_flush. destruct (g_join g) as [fs|] eqn:J; [|assumption]. pose proof (G_waits _ _ GG) as W. rewrite J in W. destruct (poll_goes _ _ W) as (A & B & C). destruct (snd (poll_join (g_parts g) fs)) as [[|]|].
      + apply GI_goes; [assumption|exact A|apply C; reflexivity].
      + apply GI_goes; [assumption|eapply forall2_trans; [exact A|apply goes_cancel]|apply cancel_waits].
      + apply GI_goes; [assumption|exact A|exact B].
    - apply GI_goes; [assumption|apply goes_cancel|apply cancel_waits].
    - unfold restart in RE. destruct (reopen _ _ _ _) as [k|] eqn:R; [|discriminate]. inversion RE; subst g'. eapply GI_reopen; eauto.
      intros i H x M n NX NH PX OP IL. destruct (same_shape _ (G_len _ _ GG) _ _ NX) as (y & NY). destruct (later_start _ _ NY) as (B1 & B2).
      destruct (PI_first c p first retry m CO FIT _ _ first_pos B1 B2 _ _ _ _ _ _ PX OP IL) as (A1 & A2 & A3). auto.
    - eapply GI_retry; eauto.
  Qed.
  Lemma GI_runs Hs g : gruns c p first retry (Hs0, g0) (Hs, g) -> GI Hs g.
  Proof.
    intros R. change (GI (fst (Hs, g)) (snd (Hs, g))). induction R as [|b d R IH MV]; [exact GI_start|]. eapply GI_step; eassumption.
  Qed.
End Group.
