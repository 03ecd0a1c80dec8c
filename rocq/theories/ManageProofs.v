(** A managed consumer: one partition. *)
From Coq Require Import Sorting.Sorted.
From Verif Require Import StorageSpec RecordSpec RecordProofs StorageProofs ReplicaProofs ClusterProofs ListFacts.
From Verif Require Import ConsumerModel ConsumerSpec ConsumerProofs ConsumerClaims StreamModel StreamProofs StreamClaims StreamSpec.
From Verif Require Import ManageModel ManageSpec StreamSpec StreamClaims.

Lemma nth_set {A} i (x y : A) l j : nth_error l i = Some y -> nth_error (ConsumerModel.set_nth i x l) j = if Nat.eqb j i then Some x else nth_error l j.
Proof.
  unfold ConsumerModel.set_nth. revert l j. induction i as [|i IH]; intros l j E; destruct l as [|a l]; try discriminate; destruct j as [|j]; cbn [firstn skipn app nth_error Nat.eqb] in *; auto.
Qed.
Lemma length_set {A} i (x y : A) l : nth_error l i = Some y -> length (ConsumerModel.set_nth i x l) = length l.
Proof. unfold ConsumerModel.set_nth. revert l. induction i as [|i IH]; intros l E; destruct l as [|a l]; try discriminate; cbn in *; auto. Qed.

(** * Where a run starts *)
Lemma clamp_le x lo hi y : lo <= hi -> clamp x lo hi = Ok y -> lo <= y <= hi /\ y <= Z.max lo x /\ Z.min hi x <= y.
Proof. unfold clamp. intros L E. destruct (hi <? lo) eqn:E1; [lia|]. inversion E. destruct (x <? lo) eqn:E2; [lia|]. destruct (hi <? x) eqn:E3; lia. Qed.
(** the position before it is brought into the log *)
Definition aim (first : request) (o : Z) : Z := match first with Absolute a => a | FromBeginning _ => o + 1 | FromEnd a => o + 1 - a end.
Lemma resolve_at first l lo hi s o : resumable first l -> 0 <= lo <= hi -> 0 <= o -> o + 1 < 2 ^ 63 -> resolve first lo hi (consumer_position (Some o)) = Ok s ->
  match first with Absolute a => s = a | _ => lo <= s <= hi /\ s <= Z.max lo (aim first o) /\ Z.min hi (aim first o) <= s end.
Proof.
  intros RS LH O O2. unfold resolve, consumer_position. cbn [option_map]. rewrite (wrap_small (o + 1)) by lia. destruct first as [a|a|a]; cbn [resumable aim] in *.
  - cbn. intros E. inversion E. lia.
  - subst a. rewrite (wrap_small (o + 1 + 0)) by lia. destruct (clamp _ _ _) as [y|] eqn:C; [|discriminate]. cbn. intros E. inversion E. apply clamp_le in C; lia.
  - destruct RS as (RS & _). rewrite (wrap_small (o + 1 - a)) by lia. destruct (clamp _ _ _) as [y|] eqn:C; [|discriminate]. cbn. intros E. inversion E. apply clamp_le in C; lia.
Qed.
Lemma resolve_none lo hi s : 0 <= lo <= hi -> lo < 2 ^ 63 -> resolve (FromBeginning 0) lo hi None = Ok s -> s = lo.
Proof.
  intros LH L2. unfold resolve. rewrite (wrap_small (lo + 0)) by lia. destruct (clamp _ _ _) as [y|] eqn:C; [|discriminate]. cbn. intros E. inversion E. apply clamp_le in C; lia.
Qed.

Lemma firstn_S {A} (l : list A) k x : nth_error l k = Some x -> firstn (S k) l = firstn k l ++ [x].
Proof. revert k. induction l as [|a l IH]; intros [|k] E; try discriminate; cbn in *; [congruence|]. f_equal. apply IH. assumption. Qed.
(** * Events of a partition *)
Lemma wruns_trans w w' w'' : wruns w w' -> wruns w' w'' -> wruns w w''.
Proof. intros A B. induction B as [|x y z B IH MV]; [assumption|]. eapply wruns_step; [apply IH; assumption|assumption]. Qed.
Lemma wruns_one w w' : wmove w w' -> wruns w w'.
Proof. intros M. eapply wruns_step; [apply wruns_none|assumption]. Qed.
(** a move that hands out nothing *)
Definition aside_of (w w' : world) : Prop := exists k, w_log w' = k ++ w_log w /\ forall o, ~ In (Handed o) k.
Ltac by_cases := repeat match goal with |- context[if ?b then _ else _] => destruct b | |- context[match ?x with _ => _ end] => destruct x end; cbn.
Lemma tick_aside due full w : aside_of w (on_tick due full w).
Proof.
  unfold on_tick, auto_flush, try_flush, aside_of. destruct (w_mode w); cbn; try (exists []; split; [reflexivity|auto]).
  destruct due; cbn; try (exists []; split; [reflexivity|auto]). destruct (_ <=? _); cbn; try (exists []; split; [reflexivity|auto]).
  destruct (full || _)%bool; cbn; try (exists []; split; [reflexivity|auto]). eexists [_]. split; [reflexivity|]. intros o [E|[]]; discriminate.
Qed.
Lemma commit_aside w : aside_of w (on_commit w).
Proof. unfold on_commit, aside_of. destruct (w_mode w); cbn; eexists [_]; (split; [reflexivity|]); intros o [E|[]]; discriminate. Qed.
Lemma flush_aside w : aside_of w (flush_begin w).
Proof.
  unfold flush_begin, aside_of. destruct (w_mode w); cbn; [eexists [_]; (split; [reflexivity|]); intros o [E|[]]; discriminate| |];
    (destruct (_ <=? _); cbn; [eexists [_]; (split; [reflexivity|]); intros o [E|[]]; discriminate|]; destruct (negb _); cbn;
     [eexists [_]; (split; [reflexivity|]); intros o [E|[]]; discriminate|exists []; split; [reflexivity|auto]]).
Qed.
Lemma cancel_aside w : aside_of w (flush_cancel w).
Proof. exists []. split; [reflexivity|auto]. Qed.
Lemma close_aside w : aside_of w (on_close w).
Proof. unfold on_close, aside_of. cbn. destruct (e_wait _); cbn; [eexists [_]|exists []]; (split; [reflexivity|]); [intros o [E|[]]; discriminate|auto]. Qed.
Lemma old_aside i x w : aside_of w (on_old i x w).
Proof. unfold on_old, aside_of. exists []. destruct (nth_error _ _) as [[|]|]; cbn; auto. Qed.
Lemma note_aside x w : aside_of w (on_note x w).
Proof.
  unfold on_note, aside_of. destruct (e_queue _) as [|t q]; [exists []; auto|]. cbn [w_log]. destruct x; [destruct (waits_for _ _)|destruct (waits_for _ _)|destruct (e_wait _)]; cbn;
    ((eexists [_]; split; [reflexivity|]; intros o [E|[]]; discriminate) || (exists []; split; [reflexivity|auto])).
Qed.
Lemma reconnect_aside full w : aside_of w (on_reconnect full w).
Proof.
  unfold on_reconnect, aside_of, try_flush. cbn [w_log]. destruct (w_mode w); cbn; try (eexists [_]; split; [reflexivity|]; intros o [E|[]]; discriminate).
  destruct (_ <=? _); cbn; try (eexists [_]; split; [reflexivity|]; intros o [E|[]]; discriminate).
  destruct (full || _)%bool; cbn; try (eexists [_]; split; [reflexivity|]; intros o [E|[]]; discriminate).
  eexists [_; _]. split; [reflexivity|]. intros o [E|[E|[]]]; discriminate.
Qed.
Lemma aside_handed w w' o : aside_of w w' -> In (Handed o) (w_log w') -> In (Handed o) (w_log w).
Proof. intros (k & E & N) IN. rewrite E in IN. apply in_app_or in IN as [IN|IN]; [exfalso; eapply N; eassumption|assumption]. Qed.
Lemma aside_trans w w' w'' : aside_of w w' -> aside_of w' w'' -> aside_of w w''.
Proof. intros (k & E & N) (k' & E' & N'). exists (k' ++ k). rewrite E', E, app_assoc. split; [reflexivity|]. intros o IN. apply in_app_or in IN as [IN|IN]; [eapply N'|eapply N]; eassumption. Qed.
Lemma record_handed o due full w o' : In (Handed o') (w_log (on_record o due full w)) -> o' = o \/ In (Handed o') (w_log w).
Proof.
  unfold on_record. destruct (w_mode w); cbn; try (intros [E|E]; [inversion E; auto|auto]).
  intros IN. rewrite <- app_assoc in IN. apply in_app_or in IN as [IN|[E|IN]]; [|inversion E; auto|auto].
  exfalso. revert IN. unfold try_flush. destruct due; cbn; [|auto]. destruct (_ <=? _); cbn; [auto|]. destruct (full || _)%bool; cbn; [auto|]. intros [E|[]]; discriminate.
Qed.
(** the offsets handed out, newest first *)
Lemma offs_app a b : offs (a ++ b) = offs a ++ offs b.
Proof. induction a as [|e a IH]; [reflexivity|]. destruct e; cbn; congruence. Qed.
Lemma offs_none k : (forall o, ~ In (Handed o) k) -> offs k = [].
Proof. induction k as [|e k IH]; intros N; [reflexivity|]. destruct e; cbn; try (apply IH; intros z Z; apply (N z); right; assumption). exfalso. apply (N o). left; reflexivity. Qed.
Lemma aside_offs w w' : aside_of w w' -> offs (w_log w') = offs (w_log w).
Proof. intros (k & E & N). rewrite E, offs_app, (offs_none _ N). reflexivity. Qed.
Lemma record_offs o due full w : offs (w_log (on_record o due full w)) = o :: offs (w_log w).
Proof.
  unfold on_record. destruct (w_mode w); cbn; try reflexivity. rewrite <- app_assoc. rewrite offs_app. cbn. unfold try_flush. destruct due; cbn; [|reflexivity].
  destruct (_ <=? _); cbn; [reflexivity|]. destruct (full || _)%bool; reflexivity.
Qed.
Lemma reconnect_run full w w0 : wruns w0 w -> wruns w0 (on_reconnect full (flush_cancel w)).
Proof. intros R. eapply wruns_step; [eapply wruns_step; [exact R|apply w_cancel]|]. apply w_reconnect. reflexivity. Qed.

Section Part.
  Context (c : config) (p : params) (first : request) (retry : bool) (m : mode).
  Context (CO : config_ok c) (SM : p_sm p = None) (FIT : c_seg_max c <= p_max p).
  Notation lim r := (log_limit (p_iso p) r).

  (** * The stream *)
  Definition at_ (H : list (batch bytes)) (n : conn) (M : Z) : Prop := exists G, RI c p (n_start n) H n (Some M) G M.
  Lemma at_open r H s : hist c r H -> 0 <= s <= lim r -> get_log_start r <= get_hw r -> at_ H (open_conn r s) s.
  Proof. intros HI SL LH. exists []. apply R1_open; cbn [n_start open_conn]; auto; try apply SSorted_nil; lia. Qed.
  Lemma at_stream H n M y : at_ H n M -> moves p (n_start n) (n_sys n) y -> at_ H (conn_move n y) M.
  Proof. intros (G & R) MV. exists G. apply RI_conn; assumption. Qed.
  Lemma at_storage H n M a r' new : at_ H n M -> op_ok c (y_store (n_sys n)) a -> live (y_store (n_sys n)) a ->
    exec c (y_store (n_sys n)) a = Done r' -> stored_by a (y_store (n_sys n)) r' new -> get_log_start r' <= get_hw r' ->
    at_ (H ++ new) (mkConn (n_start n) (set_store (n_sys n) r') (n_taken n) (n_avail n)) M.
  Proof. intros (G & R) OK LV EX ST LH. exists G. cbn [n_start]. eapply RI_store; eassumption. Qed.
  Lemma at_facts H n M : at_ H n M -> let r := y_store (n_sys n) in
    hist c r H /\ chain 0 H (get_leo r) /\ Forall honest H /\ 0 <= get_log_start r <= get_hw r /\ get_hw r <= lim r <= get_leo r /\ get_leo r < 2 ^ 63
    /\ M = n_start n + Z.of_nat (n_taken n) /\ 0 <= n_start n /\ M <= lim r.
  Proof.
    intros (G & R) r. destruct (RI_facts _ _ _ CO FIT _ _ _ _ _ R) as (L & EL & LG & HI & CH & HO & DM). subst L. fold r in LG, HI, CH, DM. pose proof (lim_le _ p _ _ LG).
    destruct R as [(r1 & H1 & HI1 & B & RN) RG (P1 & P2) NX TK SO SN CP ED]. fold r in RG. pose proof LG as (old & L & _ & IV & CO' & _). assert (0 <= get_leo r < 2 ^ 63) by (eapply inv_leo63; eassumption).
    pose proof (chain_le _ _ _ CO'). repeat split; try assumption; try lia. fold r in P2. lia.
  Qed.
  Lemma at_take H n M k : at_ H n M -> nth_error (y_out (n_sys n)) (n_taken n) = Some (Rec k) ->
    cr_offset k = M /\ In (M, cr_rec k) (flat_map records_of H) /\ between (n_start n) (M + 1) H = between (n_start n) M H ++ [(M, cr_rec k)]
    /\ at_ H (mkConn (n_start n) (n_sys n) (S (n_taken n)) (n_avail n)) (M + 1).
  Proof.
    intros (G & R) NT. destruct (taken_next _ _ _ CO SM FIT _ _ _ _ _ _ R NT) as (A & _). specialize (A _ eq_refl). cbn [fst] in A. destruct A as (EM & IN & LM & TE).
    split; [assumption|]. rewrite EM in IN. split; [assumption|].
    destruct (RI_facts _ _ _ CO FIT _ _ _ _ _ R) as (L & EL & LG & HI & CH & HO & DM). subst L. destruct (log_consecutive H 0 _ CH HO) as (CS & _).
    destruct R as [RC RG (P1 & P2) NX TK SO SN CP ED]. split.
    - rewrite (firstn_S _ _ _ NT), map_app, TK in TE. cbn [map] in TE. unfold entry in TE. rewrite EM in TE. change [Some (M, cr_rec k)] with (map Some [(M, cr_rec k)]) in TE. rewrite <- map_app in TE.
      symmetry. revert TE. generalize (between (n_start n) M H ++ [(M, cr_rec k)]) (between (n_start n) (M + 1) H). intros l0. induction l0 as [|a l0 IH]; intros [|b l1] E; cbn in E; try discriminate; [reflexivity|].
      inversion E. f_equal. apply IH. assumption.
    - exists (G ++ [(M, cr_rec k)]). cbn [n_start]. constructor; cbn [n_start n_sys n_taken n_avail]; auto.
      + lia.
      + apply (sorted_snoc _ M); [assumption| |reflexivity]. eapply Forall_impl; [|exact SN]. intros z (_ & Z). lia.
      + apply Forall_app. split; [eapply Forall_impl; [|exact SN]; intros z (? & Z); split; [assumption|lia]|]. constructor; [|constructor]. cbn [fst]. split; [assumption|lia].
      + intros z Z1 Z2. destruct (Z.lt_ge_cases (fst z) M) as [LT|GE].
        * destruct (CP z Z1 ltac:(lia)) as [Q|Q]; [left; apply in_or_app; auto|right; assumption].
        * left. apply in_or_app. right. left. apply (consecutive_inj _ _ _ _ CS IN Z1). cbn [fst]. lia.
  Qed.
  Lemma at_error H n M : at_ H n M -> nth_error (y_out (n_sys n)) (n_taken n) = Some ErrItem -> M < n_avail n <= get_log_start (y_store (n_sys n)).
  Proof. intros (G & R) NT. destruct (taken_next _ _ _ CO SM FIT _ _ _ _ _ _ R NT) as (_ & A). apply A. reflexivity. Qed.
  Lemma at_rest H n M : at_ H n M -> quiet p (n_sys n) -> n_taken n = length (y_out (n_sys n)) ->
    forall b z, In b H -> batch_end b <= lim (y_store (n_sys n)) -> In z (records_of b) -> In z (flat_map records_of H) /\ fst z < M.
  Proof.
    intros AT QU ALL b z IB BE IZ. destruct (at_facts _ _ _ AT) as (HI & CH & HO & _ & LL & _ & EM & S0 & ML). destruct AT as (G & R).
    destruct R as [(r1 & H1 & HI1 & B & RN1) RG (P1 & P2) NX TK SO SN CP ED].
    assert (one_response c p (n_start n) (y_store (n_sys n)) H) as DM by (left; exact FIT).
    destruct (plain_complete c p (n_start n) CO ltac:(lia) SM _ _ _ _ HI1 ltac:(lia) RN1 DM QU) as (q & EQ & Q & AL).
    change (map entry (y_out (n_sys n)) = map Some (between (n_start n) q H)) in EQ. apply (f_equal (@length _)) in EQ. rewrite !map_length in EQ.
    destruct (between_is H _ (n_start n) q CH HO ltac:(lia)) as (_ & Z). specialize (Z ltac:(lia)). unfold zlen in Z.
    specialize (AL b IB BE). split; [apply in_flat_map; eauto|]. rewrite Forall_forall in HO. apply records_of_range in IZ; [|auto]. lia.
  Qed.

  (** * One partition of a consumer *)
  Context (s0 : Z) (v0 : option Z).

  Record PI (H : list (batch bytes)) (x : part) (G : list (Z * rec)) (nx : option Z) (M : Z) : Prop := {
    P_at : at_ H (q_conn x) M;
    P_given : exists B, G = B ++ between (n_start (q_conn x)) M H;
    P_sound : forall z, In z G -> In z (flat_map records_of H);
    P_cov : covered H (part_store x) G s0 (M - 1);
    P_handed : forall o, In (Handed o) (w_log (q_world x)) -> covered H (part_store x) G s0 o /\ 0 <= o < lim (part_store x);
    P_log : offs (w_log (q_world x)) = rev (map fst G);
    P_world : wruns (world0 m v0) (q_world x);
    P_next : retry = true -> nx = None \/ nx = Some M }.

  Lemma covered_more H r G s k s' k' G' : covered H r G s k -> k' <= k -> s <= s' -> (forall z, In z G -> In z G') -> covered H r G' s' k'.
  Proof. intros C K S IN z Z1 Z2. destruct (C z Z1 ltac:(lia)); auto. Qed.
  Lemma PI_world H x G nx M w over : PI H x G nx M -> wruns (q_world x) w -> aside_of (q_world x) w -> PI H (mkPart (q_conn x) w over) G nx M.
  Proof.
    intros [A B C D E LO F N] R AS. constructor; cbn [q_conn q_world]; auto.
    - intros o IN. apply E. eapply aside_handed; eassumption.
    - rewrite (aside_offs _ _ AS). assumption.
    - eapply wruns_trans; eassumption.
  Qed.
  Lemma PI_stream H x G nx M y : PI H x G nx M -> moves p (n_start (q_conn x)) (n_sys (q_conn x)) y -> PI H (mkPart (conn_move (q_conn x) y) (q_world x) (q_over x)) G nx M.
  Proof.
    intros [A B C D E LO F N] MV. pose proof (moves_store p _ _ _ MV) as ES. constructor; cbn [q_conn q_world]; auto.
    - apply at_stream; assumption.
    - unfold part_store in *. cbn [q_conn conn_move n_sys]. rewrite ES. assumption.
    - unfold part_store in *. cbn [q_conn conn_move n_sys]. rewrite ES. assumption.
  Qed.
  Lemma PI_storage H x G nx M a r' new : PI H x G nx M -> op_ok c (part_store x) a -> live (part_store x) a ->
    exec c (part_store x) a = Done r' -> stored_by a (part_store x) r' new -> get_log_start r' <= get_hw r' ->
    PI (H ++ new) (mkPart (mkConn (n_start (q_conn x)) (set_store (n_sys (q_conn x)) r') (n_taken (q_conn x)) (n_avail (q_conn x))) (q_world x) (q_over x)) G nx M.
  Proof.
    intros [A B C D E LO F N] OK LV EX ST LH. destruct (at_facts _ _ _ A) as (HI & CH & HO & LS & LL & L63 & EM & S0 & ML). fold (part_store x) in *.
    pose proof (hist_logged _ _ _ CO HI) as LG.
    destruct (logged_step c _ H a r' new CO LG OK ltac:(destruct a; cbn in *; auto) EX ST) as (LG' & LE & LSL & HM). pose proof ST as (CN & _).
    assert (Forall honest new) as HN by (destruct LG' as (? & ? & _ & _ & _ & _ & HO'); rewrite Forall_app in HO'; tauto).
    assert (forall k, k < get_leo (part_store x) -> covered H (part_store x) G s0 k -> covered (H ++ new) r' G s0 k) as GROW.
    { intros k K CV z Z1 Z2. rewrite flat_map_app in Z1. apply in_app_or in Z1 as [Z1|Z1]; [destruct (CV z Z1 Z2); [auto|right; lia]|].
      exfalso. apply in_flat_map in Z1 as (b & IN & IX). rewrite Forall_forall in HN. apply records_of_range in IX; [|auto]. apply (chain_in _ _ _ _ CN) in IN. lia. }
    constructor; cbn [q_conn q_world]; auto.
    - eapply at_storage; eassumption.
    - destruct B as (B & ->). exists B. cbn [n_start]. rewrite (between_grow H new _ _ _ M CN HN) by lia. reflexivity.
    - intros z IN. rewrite flat_map_app. apply in_or_app. auto.
    - apply GROW; [lia|assumption].
    - intros o IN. destruct (E o IN) as (E1 & E2). split; [apply GROW; [lia|assumption]|]. unfold part_store. cbn [q_conn n_sys set_store y_store]. unfold log_limit in *. destruct (p_iso p); lia.
  Qed.
  Lemma PI_hand H x G nx M k due full : PI H x G nx M -> e_wait (w_cur (q_world x)) = None -> nth_error (y_out (n_sys (q_conn x))) (n_taken (q_conn x)) = Some (Rec k) ->
    cr_offset k = M /\
    PI H (mkPart (mkConn (n_start (q_conn x)) (n_sys (q_conn x)) (S (n_taken (q_conn x))) (n_avail (q_conn x))) (on_record (cr_offset k) due full (q_world x)) false)
      (G ++ [(cr_offset k, cr_rec k)]) (Some (M + 1)) (M + 1).
  Proof.
    intros [A B C D E LO F N] WT NT. destruct (at_facts _ _ _ A) as (HI & CH & HO & LS & LL & L63 & EM & S0 & ML). fold (part_store x) in *.
    destruct (at_take _ _ _ _ A NT) as (EK & IN & EB & A'). rewrite EK. split; [reflexivity|].
    destruct (at_facts _ _ _ A') as (_ & _ & _ & _ & _ & _ & _ & _ & ML'). cbn [n_sys] in ML'. fold (part_store x) in ML'.
    destruct (log_consecutive H 0 _ CH HO) as (CS & _).
    assert (covered H (part_store x) (G ++ [(M, cr_rec k)]) s0 M) as CV.
    { intros z Z1 Z2. destruct (Z.eq_dec (fst z) M) as [EZ|NE].
      - left. apply in_or_app. right. left. apply (consecutive_inj _ _ _ _ CS IN Z1). cbn. lia.
      - destruct (D z Z1 ltac:(lia)); [left; apply in_or_app; auto|auto]. }
    constructor; cbn [q_conn q_world]; auto;
      change (part_store {| q_conn := _; q_world := on_record _ _ _ _; q_over := _ |}) with (part_store x).
    - destruct B as (B & ->). exists B. cbn [n_start]. rewrite EB, app_assoc. reflexivity.
    - intros z Z. apply in_app_or in Z as [Z|[<-|[]]]; auto.
    - replace (M + 1 - 1) with M by lia. exact CV.
    - intros o IO. apply record_handed in IO as [->|IO]; [split; [exact CV|lia]|]. destruct (E o IO) as (E1 & E2). split; [|assumption].
      eapply covered_more; [exact E1|lia|lia|]. intros z Z. apply in_or_app; auto.
    - rewrite record_offs, map_app, rev_app_distr, LO. reflexivity.
    - eapply wruns_step; [exact F|]. apply w_record; [assumption|]. lia.
  Qed.
  Lemma PI_stored H x G nx M : PI H x G nx M -> w_stored (q_world x) = v0 \/ exists o, w_stored (q_world x) = Some o /\ covered H (part_store x) G s0 o /\ 0 <= o < lim (part_store x).
  Proof. intros P. destruct (never_beyond _ _ _ (P_world _ _ _ _ _ P)) as [E|(o & E & IN & _)]; [auto|right]. exists o. split; [assumption|]. apply (P_handed _ _ _ _ _ P). assumption. Qed.
  (** a new stream of the same partition *)
  Lemma PI_open H x G nx M n s nx' full : PI H x G nx M -> 0 <= s <= lim (part_store x) -> n = open_conn (part_store x) s -> covered H (part_store x) G s0 (s - 1) ->
    (retry = true -> nx' = None \/ nx' = Some s) -> PI H (mkPart n (on_reconnect full (flush_cancel (q_world x))) false) G nx' s.
  Proof.
    intros [A B C D E LO F N] SL -> CV NX. destruct (at_facts _ _ _ A) as (HI & CH & HO & LS & LL & L63 & EM & S0 & ML). fold (part_store x) in *.
    constructor; cbn [q_conn q_world open_conn n_start]; auto.
    - apply at_open; [assumption|lia|lia].
    - exists G. replace (between s s H) with (@nil (Z * rec)); [rewrite app_nil_r; reflexivity|]. symmetry. apply filter_false. intros z _. lia.
    - intros o IN. apply E. eapply aside_handed; [|exact IN]. eapply aside_trans; [apply cancel_aside|apply reconnect_aside].
    - rewrite <- LO. apply aside_offs. eapply aside_trans; [apply cancel_aside|apply reconnect_aside].
    - apply reconnect_run. assumption.
  Qed.
  Context (POS : match first with Absolute a => 0 <= a | _ => True end).
  Context (BASE : forall lo hi s, 0 <= lo <= hi -> lo < 2 ^ 63 -> resolve first lo hi (consumer_position v0) = Ok s -> s <= Z.max lo s0).
  Context (BASE' : forall o lo hi s, 0 <= lo <= hi -> 0 <= o -> o + 1 < 2 ^ 63 -> resolve first lo hi (consumer_position (Some o)) = Ok s -> s <= Z.max lo (Z.max s0 (o + 1))).
  Lemma PI_first H x G nx M n : PI H x G nx M -> open_part first (w_stored (q_world x)) (part_store x) = Some n -> n_start n <= lim (part_store x) ->
    0 <= n_start n /\ n = open_conn (part_store x) (n_start n) /\ covered H (part_store x) G s0 (n_start n - 1).
  Proof.
    intros P OP SL. destruct (at_facts _ _ _ (P_at _ _ _ _ _ P)) as (HI & CH & HO & LS & LL & L63 & EM & S0 & ML). fold (part_store x) in *.
    unfold open_part in OP. destruct (resolve _ _ _ _) as [s|] eqn:RV; [|discriminate]. inversion OP; subst n. clear OP. cbn [open_conn n_start] in *.
    assert (0 <= s) as SN. { unfold resolve in RV. destruct first; cbn [bind] in RV; [inversion RV; lia| |]; destruct (clamp _ _ _); cbn [bind] in RV; inversion RV; lia. }
    split; [assumption|]. split; [reflexivity|].
    destruct (PI_stored _ _ _ _ _ P) as [ES|(o & ES & CV & O)]; rewrite ES in RV.
    - apply BASE in RV; [|lia|lia]. intros z Z1 Z2. right. lia.
    - apply BASE' in RV; [|lia|lia|lia]. intros z Z1 Z2. destruct (Z.le_gt_cases (fst z) o); [apply CV; [assumption|lia]|right; lia].
  Qed.
End Part.
