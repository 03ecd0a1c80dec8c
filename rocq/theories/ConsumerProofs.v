(** Start offsets and managed offsets. *)
From Coq Require Import Sorting.Sorted.
From Verif Require Import ListFacts StorageSpec StreamSpec ConsumerModel ConsumerSpec.

(** * Start offsets *)
Lemma wrap_small x : - 2 ^ 63 <= x < 2 ^ 63 -> wrap_s 64 x = x.
Proof. intros B. apply wrap_s_id; [lia|]. unfold in_s. change (64 - 1) with 63. lia. Qed.
Lemma resolve_clamps q start stable stored : log_range start stable -> stored_ok stored -> relative q ->
  resolve q start stable (consumer_position stored) = Ok (Z.max start (Z.min (named q start stable stored) stable)).
Proof.
  intros (L1 & L2) SO RE. unfold resolve, clamp, named, consumer_position. replace (stable <? start) with false by lia.
  assert (2 ^ 32 = 4294967296 /\ 2 ^ 33 = 8589934592 /\ 2 ^ 63 = 9223372036854775808) as (P1 & P2 & P3) by (vm_compute; auto).
  destruct q as [o|o|o]; [contradiction| |]; unfold relative, in_u in RE; destruct stored as [k|]; cbn [option_map stored_ok] in *; cbn [bind].
  - rewrite (wrap_small (k + 1)) by lia. rewrite wrap_small by lia. f_equal. destruct (_ <? start) eqn:A; [lia|]. destruct (stable <? _) eqn:B; lia.
  - rewrite wrap_small by lia. f_equal. destruct (_ <? start) eqn:A; [lia|]. destruct (stable <? _) eqn:B; lia.
  - rewrite (wrap_small (k + 1)) by lia. rewrite wrap_small by lia. f_equal. destruct (_ <? start) eqn:A; [lia|]. destruct (stable <? _) eqn:B; lia.
  - rewrite wrap_small by lia. f_equal. destruct (_ <? start) eqn:A; [lia|]. destruct (stable <? _) eqn:B; lia.
Qed.
Lemma resolve_inside q start stable stored : log_range start stable -> stored_ok stored -> relative q ->
  exists x, resolve q start stable (consumer_position stored) = Ok x /\ start <= x <= stable
    /\ (start <= named q start stable stored <= stable -> x = named q start stable stored)
    /\ (named q start stable stored < start -> x = start) /\ (stable < named q start stable stored -> x = stable).
Proof.
  intros L S R. rewrite (resolve_clamps q start stable stored L S R). eexists. split; [reflexivity|]. destruct L. lia.
Qed.
Lemma resolve_monotone q q' start stable stored x x' : log_range start stable -> stored_ok stored -> relative q -> relative q' -> later q q' ->
  resolve q start stable (consumer_position stored) = Ok x -> resolve q' start stable (consumer_position stored) = Ok x' -> x <= x'.
Proof.
  intros L S R R' LT E E'. rewrite (resolve_clamps _ _ _ _ L S R) in E. rewrite (resolve_clamps _ _ _ _ L S R') in E'.
  inversion E; inversion E'; subst. destruct q, q'; cbn in *; try contradiction; destruct stored; lia.
Qed.
Lemma resolve_absolute q o start stable stored : absolute o = Some q -> resolve q start stable (consumer_position stored) = Ok o.
Proof. unfold absolute. destruct (o <? 0) eqn:E; intros A; inversion A; subst. cbn. f_equal. lia. Qed.

(** * Managed offsets *)
Lemma highest_ge l : -1 <= highest l.
Proof. induction l as [|[] l IH]; cbn [highest]; lia. Qed.
Lemma highest_in o l : In (Handed o) l -> o <= highest l.
Proof. induction l as [|e l IH]; intros IN; [contradiction|]. destruct IN as [->|IN]; [cbn; lia|]. specialize (IH IN). destruct e; cbn [highest]; lia. Qed.
Lemma last_commit_highest m l : last_commit m l <= highest l.
Proof. induction l as [|e l IH]; [cbn; lia|]. destruct e; cbn [last_commit highest]; try lia. destruct m; cbn [highest]; lia. Qed.
Lemma last_commit_ge m l : -1 <= last_commit m l.
Proof. induction l as [|[] l IH]; cbn [last_commit]; try lia; [|apply highest_ge]. destruct m; auto. apply highest_ge. Qed.
Lemma last_commit_grows m l e : last_commit m l <= last_commit m (e :: l).
Proof. pose proof (last_commit_highest m l). destruct e; cbn [last_commit]; try lia. destruct m; cbn [highest]; lia. Qed.
Lemma last_commit_app m l k : last_commit m l <= last_commit m (k ++ l).
Proof. induction k as [|e k IH]; [reflexivity|]. cbn [app]. pose proof (last_commit_grows m (k ++ l) e). lia. Qed.
Lemma last_commit_auto l : last_commit Auto l = highest l.
Proof. induction l as [|e l IH]; [reflexivity|]. destruct e; cbn [last_commit highest]; auto. Qed.

(** Something that was handed out and committed. *)
Definition fine (m : mode) (l : list event) (o : Z) : Prop := In (Handed o) l /\ o <= last_commit m l.
Lemma fine_app m l k o : fine m l o -> fine m (k ++ l) o.
Proof. intros (A & B). split; [apply in_or_app; auto|]. pose proof (last_commit_app m l k). lia. Qed.
Lemma fine_cons m l e o : fine m l o -> fine m (e :: l) o.
Proof. apply (fine_app m l [e]). Qed.

Definition lgood (m : mode) (L : list event) (l : local) : Prop :=
  -1 <= l_seen l /\ (l_seen l = -1 \/ In (Handed (l_seen l)) L) /\ -1 <= l_comm l /\ (l_comm l = -1 \/ fine m L (l_comm l))
  /\ -1 <= l_flushed l /\ (m = Auto -> l_comm l = l_seen l).
Lemma lgood_app m L k l : lgood m L l -> lgood m (k ++ L) l.
Proof.
  intros (A & B & C & D & E & F). split; [assumption|]. split; [destruct B; auto; right; apply in_or_app; auto|]. split; [assumption|].
  split; [destruct D; auto; right; apply fine_app; assumption|]. auto.
Qed.
Definition egood (m : mode) (L : list event) (e : session) : Prop := lgood m L (e_local e) /\ forall t, In t (e_queue e) -> fine m L (t_off t).
Lemma egood_app m L k e : egood m L e -> egood m (k ++ L) e.
Proof. intros (A & B). split; [apply lgood_app; assumption|]. intros t IN. apply fine_app; auto. Qed.
Record safe (v0 : option Z) (w : world) : Prop := {
  f_cur : egood (w_mode w) (w_log w) (w_cur w);
  f_old : forall q t, In q (w_old w) -> In t q -> fine (w_mode w) (w_log w) (t_off t);
  f_stored : w_stored w = v0 \/ exists o, w_stored w = Some o /\ fine (w_mode w) (w_log w) o }.
Lemma safe_start m v0 : safe v0 (world0 m v0).
Proof. split; cbn; auto; try contradiction. split; cbn; [|contradiction]. unfold lgood. cbn. repeat split; auto; lia. Qed.

Lemma lgood_mark m L l : lgood m L l -> lgood m (Committed :: L) (mark l).
Proof.
  intros (A & B & C & D & E & F). unfold lgood. cbn [mark l_seen l_comm l_flushed]. repeat split; auto.
  - destruct B; [auto|right; right; assumption].
  - destruct B as [B|B]; [auto|right]. split; [right; assumption|]. cbn. apply highest_in; assumption.
Qed.
Lemma lgood_mark_auto L l : lgood Auto L l -> lgood Auto L (mark l).
Proof.
  intros (A & B & C & D & E & F). unfold lgood. cbn [mark l_seen l_comm l_flushed]. repeat split; auto. rewrite (F eq_refl) in D. assumption.
Qed.
Lemma lgood_see m L l o : 0 <= o -> lgood m L l -> m <> Auto -> lgood m (Handed o :: L) (see o l).
Proof.
  intros O0 (A & B & C & D & E & F) NA. unfold lgood. cbn [see l_seen l_comm l_flushed]. split; [lia|]. split; [|split; [assumption|split; [|split; [assumption|congruence]]]].
  - destruct (Z.max_spec (l_seen l) o) as [(_ & ->)|(_ & ->)]; [right; left; reflexivity|]. destruct B; [auto|right; right; assumption].
  - destruct D as [D|D]; [auto|right; apply fine_cons; assumption].
Qed.
Lemma lgood_auto L l o : 0 <= o -> lgood Auto L l -> lgood Auto (Handed o :: L) (mark (see o l)).
Proof.
  intros O0 (A & B & C & D & E & F). unfold lgood. cbn [see mark l_seen l_comm l_flushed].
  assert (In (Handed (Z.max (l_seen l) o)) (Handed o :: L)) as IN.
  { destruct (Z.max_spec (l_seen l) o) as [(_ & ->)|(LE & ->)]; [left; reflexivity|]. destruct B as [B|B]; [lia|right; assumption]. }
  split; [lia|]. split; [auto|]. split; [lia|]. split; [|auto]. right. split; [assumption|]. rewrite last_commit_auto. apply highest_in; assumption.
Qed.
Lemma lgood_flushed m L l : lgood m L l -> lgood m L (set_flushed (l_comm l) l).
Proof. intros (A & B & C & D & E & F). unfold lgood. cbn. repeat split; auto. Qed.
Lemma fine_comm m L l : lgood m L l -> l_flushed l < l_comm l -> fine m L (l_comm l).
Proof. intros (A & B & C & [D|D] & E & F) LT; [lia|assumption]. Qed.
Lemma try_flush_good m L full e : egood m L e -> egood m (snd (try_flush full e) ++ L) (fst (try_flush full e)).
Proof.
  intros G. unfold try_flush. destruct (_ <=? _) eqn:A; [exact G|]. destruct (full || negb (e_open e)); [exact G|]. cbn [fst snd]. apply egood_app.
  destruct G as (G & Q). split; cbn [e_local e_queue]; [apply lgood_flushed; assumption|]. intros t IN. apply in_app_or in IN as [IN|[<-|[]]]; [auto|]. cbn. apply fine_comm; [assumption|lia].
Qed.
Lemma auto_flush_good m L due full e : egood m L e -> egood m (snd (auto_flush m due full e) ++ L) (fst (auto_flush m due full e)).
Proof. intros G. unfold auto_flush. destruct m; try exact G. destruct due; [apply try_flush_good; assumption|exact G]. Qed.

Lemma set_cur_safe v0 w e l : safe v0 w -> egood (w_mode w) (l ++ w_log w) e -> safe v0 (set_cur w e l).
Proof.
  intros [S1 S2 S3] G. split; cbn; auto.
  - intros q t IQ IT. apply fine_app. eapply S2; eassumption.
  - destruct S3 as [S3|(o & S3 & F)]; [auto|]. right. exists o. split; [assumption|]. apply fine_app; assumption.
Qed.
Lemma store_note_safe v0 v t x m L : fine m L (t_off t) -> (v = v0 \/ exists o, v = Some o /\ fine m L o) ->
  store_note t x v = v0 \/ exists o, store_note t x v = Some o /\ fine m L o.
Proof. intros F S. unfold store_note. destruct (applied x); [right; eauto|assumption]. Qed.
Lemma set_nth_in {A} i (x : A) l y : In y (set_nth i x l) -> y = x \/ In y l.
Proof.
  unfold set_nth. intros IN. rewrite <- (firstn_skipn i l). apply in_app_or in IN as [IN|[<-|IN]]; [right; apply in_or_app; auto|auto|].
  right. apply in_or_app. right. clear -IN. revert l IN. induction i as [|i IH]; intros [|a l] IN; cbn [skipn] in *; auto. right; assumption.
Qed.
Lemma safe_step v0 w w' : safe v0 w -> wmove w w' -> safe v0 w'.
Proof.
  intros SF MV. destruct MV as [w o due full WT O0|w due full|w WT|w WT|w|w x|w|w full WT|w i x]; pose proof SF as [(SL & SQ) SO SS].
  - unfold on_record. destruct (w_mode w) eqn:EM.
    + apply set_cur_safe; [assumption|]. rewrite EM. apply egood_app. split; assumption.
    + apply set_cur_safe; [assumption|]. rewrite EM. split; [apply lgood_see; [assumption..|discriminate]|]. intros t IN. apply fine_cons. auto.
    + apply set_cur_safe; [assumption|]. rewrite EM, <- app_assoc. apply (auto_flush_good Auto). split; [apply lgood_auto; assumption|]. intros t IN. apply fine_cons. auto.
  - unfold on_tick. apply set_cur_safe; [assumption|]. apply auto_flush_good. split; assumption.
  - unfold on_commit. destruct (w_mode w) eqn:EM; apply set_cur_safe; try assumption; rewrite EM.
    + apply egood_app. split; assumption.
    + split; [apply lgood_mark; assumption|]. intros t IN. apply fine_cons. auto.
    + split; [apply lgood_mark; assumption|]. intros t IN. apply fine_cons. auto.
  - unfold flush_begin. assert (forall ev, safe v0 (set_cur w (w_cur w) [ev])) as OK by (intros ev; apply set_cur_safe; [assumption|apply egood_app; split; assumption]).
    assert (l_comm (e_local (w_cur w)) <=? l_flushed (e_local (w_cur w)) = false -> safe v0 (set_cur w (mkSession (e_local (w_cur w)) (e_queue (w_cur w) ++ [mkNote (l_comm (e_local (w_cur w))) (Some (e_id (w_cur w)))]) (e_open (w_cur w)) (Some (e_id (w_cur w))) (S (e_id (w_cur w)))) [])) as GO.
    { intros LE. apply set_cur_safe; [assumption|]. split; [assumption|]. cbn [e_queue app]. intros t IN. apply in_app_or in IN as [IN|[<-|[]]]; [auto|]. apply fine_comm; [assumption|lia]. }
    destruct (w_mode w) eqn:EM; [apply OK| |]; destruct (_ <=? _) eqn:LE; try apply OK; destruct (negb _); try apply OK; apply GO; reflexivity.
  - unfold flush_cancel. apply set_cur_safe; [assumption|]. split; assumption.
  - unfold on_note. destruct (e_queue (w_cur w)) as [|t q] eqn:EQ; [exact SF|].
    assert (fine (w_mode w) (w_log w) (t_off t)) as FT by (apply SQ; left; reflexivity).
    set (p := match x with Confirmed => _ | Refusal _ => _ | Broken _ => _ end).
    assert (egood (w_mode w) (w_log w) (fst p)) as G.
    { subst p. destruct x; [destruct (waits_for _ _)|destruct (waits_for _ _)|]; (split; cbn [fst e_local e_queue]; [try assumption; apply lgood_flushed; assumption|]); intros y IN; try contradiction; apply SQ; right; assumption. }
    split; cbn [w_mode w_log w_cur w_old w_stored].
    + apply egood_app. exact G.
    + intros q' t' IQ IT. apply fine_app. eapply SO; eassumption.
    + apply store_note_safe; [apply fine_app; assumption|]. destruct SS as [SS|(o & SS & F)]; [auto|right; exists o; split; [assumption|apply fine_app; assumption]].
  - unfold on_close. apply set_cur_safe; [assumption|]. apply egood_app. split; [assumption|]. intros t [].
  - unfold on_reconnect. set (p := match w_mode w with Auto => _ | _ => _ end).
    assert (egood (w_mode w) (snd p ++ w_log w) (fst p)) as G.
    { subst p. destruct (w_mode w) eqn:EM; try (split; assumption). apply try_flush_good. split; [apply lgood_mark_auto; assumption|assumption]. }
    split; cbn [w_mode w_log w_cur w_old w_stored].
    + split; [unfold lgood; cbn; repeat split; auto; lia|intros t []].
    + intros q t IQ IT. apply fine_cons. apply in_app_or in IQ as [IQ|[<-|[]]]; [apply fine_app; eapply SO; eassumption|]. apply G. assumption.
    + destruct SS as [SS|(o & SS & F)]; [auto|right; exists o; split; [assumption|apply fine_cons, fine_app; assumption]].
  - unfold on_old. destruct (nth_error (w_old w) i) as [[|t q]|] eqn:EN; try exact SF.
    assert (forall y, In y (t :: q) -> fine (w_mode w) (w_log w) (t_off y)) as FQ by (intros y IN; eapply SO; [eapply nth_error_In; exact EN|exact IN]).
    split; cbn [w_mode w_log w_cur w_old w_stored].
    + split; assumption.
    + intros q' t' IQ IT. apply set_nth_in in IQ as [->|IQ]; [|eapply SO; eassumption]. apply FQ. destruct x; try (right; assumption). contradiction.
    + apply store_note_safe; [apply FQ; left; reflexivity|assumption].
Qed.
Lemma safe_runs m v0 w : wruns (world0 m v0) w -> safe v0 w.
Proof. intros R. remember (world0 m v0) as w0 eqn:E. induction R; subst; [apply safe_start|]. eapply safe_step; [apply IHR; reflexivity|eassumption]. Qed.
Lemma mode_step w w' : wmove w w' -> w_mode w' = w_mode w.
Proof.
  intros MV. destruct MV; unfold on_record, on_tick, on_commit, flush_begin, flush_cancel, on_note, on_close, on_reconnect, on_old; cbn; try reflexivity.
  - destruct (w_mode w) eqn:E; cbn; auto.
  - destruct (w_mode w) eqn:E; cbn; auto.
  - destruct (w_mode w) eqn:E; cbn; auto; destruct (_ <=? _); cbn; auto; destruct (negb _); cbn; auto.
  - destruct (e_queue _); reflexivity.
  - destruct (nth_error _ _) as [[|]|]; reflexivity.
Qed.
Lemma mode_runs m v0 w : wruns (world0 m v0) w -> w_mode w = m.
Proof. intros R. remember (world0 m v0) as w0 eqn:E. induction R; subst; [reflexivity|]. rewrite (mode_step _ _ H). auto. Qed.

Lemma never_beyond m v0 w : wruns (world0 m v0) w ->
  w_stored w = v0 \/ exists o, w_stored w = Some o /\ In (Handed o) (w_log w) /\ o <= last_commit m (w_log w).
Proof. intros R. pose proof (f_stored _ _ (safe_runs _ _ _ R)) as S. rewrite (mode_runs _ _ _ R) in S. exact S. Qed.

(** Without offset management nothing is ever sent. *)
Lemma unmanaged v0 w : wruns (world0 NoManagement v0) w -> w_stored w = v0.
Proof.
  intros R. assert (w_mode w = NoManagement /\ w_stored w = v0 /\ e_queue (w_cur w) = [] /\ forall q, In q (w_old w) -> q = []) as (_ & E & _); [|exact E].
  remember (world0 NoManagement v0) as w0 eqn:E0. induction R as [w|w w' w'' R IH MV]; subst; [cbn; repeat split; auto; contradiction|].
  specialize (IH eq_refl). destruct IH as (M & S & Q & O). split; [rewrite (mode_step _ _ MV); assumption|].
  destruct MV as [w' o due full WT O0|w' due full|w' WT|w' WT|w'|w' x|w'|w' full WT|w' i x];
    unfold on_record, on_tick, on_commit, flush_begin, flush_cancel, on_note, on_close, on_reconnect, on_old, auto_flush; rewrite ?M, ?Q; cbn; auto.
  - split; [assumption|]. split; [reflexivity|]. intros q IN. apply in_app_or in IN as [IN|[<-|[]]]; auto.
  - destruct (nth_error (w_old w') i) as [[|t q]|] eqn:EN; auto. apply nth_error_In in EN. apply O in EN. discriminate.
Qed.

(** The stored offset was sent by this stream, and no message under way is older. *)
Definition mine (v : option Z) (e : session) (lo : Z) : Prop :=
  exists o, v = Some o /\ lo <= o <= l_comm (e_local e) /\ forall t, In t (e_queue e) -> o <= t_off t.
Definition in_order (q : list note) : Prop := StronglySorted (fun a b => t_off a <= t_off b) q.
Record calm (v0 : option Z) (m : mode) (L : list event) (v : option Z) (e : session) : Prop := {
  c_seen : l_seen (e_local e) = highest L;
  c_comm : l_comm (e_local e) = last_commit m L;
  c_sorted : in_order (e_queue e);
  c_queue : forall t, In t (e_queue e) -> -1 <= t_off t <= l_comm (e_local e);
  c_stored : v = v0 \/ mine v e (-1);
  c_le : l_flushed (e_local e) <= l_comm (e_local e);
  c_flushed : l_flushed (e_local e) = -1 \/ mine v e (l_flushed (e_local e)) \/ In (AutoSent (l_flushed (e_local e))) L;
  c_ids : forall t i, In t (e_queue e) -> t_cb t = Some i -> (i < e_id e)%nat;
  c_wait : forall i, e_wait e = Some i -> (i < e_id e)%nat /\ forall t, In t (e_queue e) -> t_cb t = Some i -> t_off t = l_comm (e_local e);
  c_ok : forall k, L = FlushOk :: k -> l_comm (e_local e) = -1 \/ mine v e (l_comm (e_local e)) \/ In (AutoSent (l_comm (e_local e))) L }.
Lemma sorted_snoc q t : in_order q -> (forall x, In x q -> t_off x <= t_off t) -> in_order (q ++ [t]).
Proof.
  intros S F. induction q as [|a q IH]; [repeat constructor|]. inversion S as [|a' q' S' FA]; subst. cbn [app]. constructor.
  - apply IH; [assumption|]. intros x IN. apply F. right; assumption.
  - apply Forall_app. split; [assumption|]. repeat constructor. apply F. left; reflexivity.
Qed.
Lemma calm_start m v0 : calm v0 m [] v0 session0.
Proof. split; cbn; auto; try lia; try contradiction; try discriminate. constructor. Qed.

(** commits and records change the committed position *)
Lemma calm_commit v0 m L v e ev f : calm v0 m L v e -> e_wait e = None -> (forall k, ev <> AutoSent k) -> ev <> FlushOk ->
  l_seen (f (e_local e)) = highest (ev :: L) -> l_comm (f (e_local e)) = last_commit m (ev :: L) -> l_flushed (f (e_local e)) = l_flushed (e_local e) ->
  calm v0 m (ev :: L) v (on_local f e).
Proof.
  intros C W NA NF A B D. destruct C as [C1 C2 C3 C4 C5 C6 C7 C8 C9 C10]. pose proof (last_commit_grows m L ev) as G.
  assert (forall lo, mine v e lo -> mine v (on_local f e) lo) as MM.
  { intros lo (o & E & O1 & O2). exists o. cbn. split; [assumption|]. split; [lia|assumption]. }
  split; cbn; auto.
  - intros t IN. specialize (C4 t IN). lia.
  - destruct C5 as [C5|C5]; auto.
  - lia.
  - rewrite D. destruct C7 as [C7|[C7|C7]]; auto.
  - rewrite W. discriminate.
  - intros k E. inversion E; subst. congruence.
Qed.
(** events that say nothing about commits and reads *)
Definition aside (ev : event) : Prop := match ev with Refused | FlushOk | FlushErr | AutoSent _ => True | _ => False end.
Lemma aside_same m L ev : aside ev -> highest (ev :: L) = highest L /\ last_commit m (ev :: L) = last_commit m L.
Proof. destruct ev; cbn; intros A; try contradiction; auto. Qed.
Lemma calm_event v0 m L v e ev : calm v0 m L v e -> aside ev -> ev <> FlushOk -> calm v0 m (ev :: L) v e.
Proof.
  intros [C1 C2 C3 C4 C5 C6 C7 C8 C9 C10] AS NF. destruct (aside_same m L ev AS) as (E1 & E2). split; auto.
  - congruence.
  - congruence.
  - destruct C7 as [C7|[C7|C7]]; auto. right; right; right; assumption.
  - intros k E. inversion E; subst. congruence.
Qed.
Lemma calm_ok v0 m L v e : calm v0 m L v e -> (l_comm (e_local e) = -1 \/ mine v e (l_comm (e_local e)) \/ In (AutoSent (l_comm (e_local e))) L) -> calm v0 m (FlushOk :: L) v e.
Proof.
  intros [C1 C2 C3 C4 C5 C6 C7 C8 C9 C10] OK. split; auto.
  - destruct C7 as [C7|[C7|C7]]; auto. right; right; right; assumption.
  - intros k _. destruct OK as [OK|[OK|OK]]; auto. right; right; right; assumption.
Qed.
Lemma try_flush_calm v0 m L v e full : calm v0 m L v e -> calm v0 m (snd (try_flush full e) ++ L) v (fst (try_flush full e)).
Proof.
  intros C. unfold try_flush. destruct (_ <=? _) eqn:A; [exact C|]. destruct (full || negb (e_open e)); [exact C|]. cbn [fst snd app].
  destruct C as [C1 C2 C3 C4 C5 C6 C7 C8 C9 C10].
  assert (forall lo, mine v e lo -> lo <= l_comm (e_local e) -> mine v (mkSession (set_flushed (l_comm (e_local e)) (e_local e)) (e_queue e ++ [mkNote (l_comm (e_local e)) None]) (e_open e) (e_wait e) (e_id e)) lo) as MM.
  { intros lo (o & E & O1 & O2) _. exists o. cbn. split; [assumption|]. split; [lia|]. intros t IN. apply in_app_or in IN as [IN|[<-|[]]]; [auto|cbn; lia]. }
  split; cbn; auto.
  - apply sorted_snoc; [assumption|]. intros x IN. cbn. apply C4 in IN. lia.
  - intros t IN. pose proof (last_commit_ge m L). apply in_app_or in IN as [IN|[<-|[]]]; [auto|cbn; lia].
  - destruct C5 as [C5|(o & E & O1 & O2)]; [auto|right]. apply MM; [exists o; auto|lia].
  - lia.
  - intros t i IN. apply in_app_or in IN as [IN|[<-|[]]]; [eauto|discriminate].
  - intros i W. destruct (C9 i W) as (B & T). split; [assumption|]. intros t IN. apply in_app_or in IN as [IN|[<-|[]]]; [auto|discriminate].
Qed.
Lemma auto_flush_calm v0 m L v e due full : calm v0 m L v e -> calm v0 m (snd (auto_flush m due full e) ++ L) v (fst (auto_flush m due full e)).
Proof. intros C. unfold auto_flush. destruct m; try exact C. destruct due; [apply try_flush_calm; assumption|exact C]. Qed.

(** the answer to the oldest message *)
Lemma calm_stored v0 m L e t q x : calm v0 m L x e -> e_queue e = t :: q -> forall y,
  calm v0 m L (store_note t y x) (mkSession (e_local e) q (e_open e) (e_wait e) (e_id e)).
Proof.
  intros [C1 C2 C3 C4 C5 C6 C7 C8 C9 C10] EQ y. rewrite EQ in C3, C4, C8, C9. unfold in_order in C3. inversion C3 as [|a b S F]; subst. rewrite Forall_forall in F.
  pose proof (C4 t (or_introl eq_refl)) as CT.
  assert (forall lo, lo <= t_off t -> mine (Some (t_off t)) (mkSession (e_local e) q (e_open e) (e_wait e) (e_id e)) lo) as MT.
  { intros lo LE. exists (t_off t). cbn. split; [reflexivity|]. split; [lia|]. intros t' IN. auto. }
  assert (forall lo, mine x e lo -> mine (store_note t y x) (mkSession (e_local e) q (e_open e) (e_wait e) (e_id e)) lo) as MS.
  { intros lo (o & E & O1 & O2). rewrite EQ in O2. unfold store_note. destruct (applied y); [apply MT; specialize (O2 t (or_introl eq_refl)); lia|].
    exists o. cbn. split; [assumption|]. split; [assumption|]. intros t' IN. apply O2. right; assumption. }
  split; cbn; auto.
  - intros t' IN. apply C4. right; assumption.
  - destruct C5 as [C5|C5]; [|auto]. unfold store_note. destruct (applied y); [right; apply MT; lia|auto].
  - destruct C7 as [C7|[C7|C7]]; auto.
  - intros t' i IN. apply C8. right; assumption.
  - intros i W. destruct (C9 i W) as (B & T). split; [assumption|]. intros t' IN. apply T. right; assumption.
  - intros k E. destruct (C10 k E) as [O|[O|O]]; auto.
Qed.
Lemma calm_quit v0 m L v e : calm v0 m L v e -> calm v0 m L v (mkSession (e_local e) [] false None (e_id e)).
Proof.
  intros [C1 C2 C3 C4 C5 C6 C7 C8 C9 C10].
  assert (forall lo, mine v e lo -> mine v (mkSession (e_local e) [] false None (e_id e)) lo) as MM by (intros lo (o & E & O1 & O2); exists o; cbn; repeat split; auto; try lia; contradiction).
  split; cbn; auto; try contradiction; try discriminate.
  - constructor.
  - destruct C5; auto.
  - destruct C7 as [C7|[C7|C7]]; auto.
  - intros k E. destruct (C10 k E) as [O|[O|O]]; auto.
Qed.
Lemma calm_unwait v0 m L v e : calm v0 m L v e -> calm v0 m L v (mkSession (e_local e) (e_queue e) (e_open e) None (e_id e)).
Proof. intros [C1 C2 C3 C4 C5 C6 C7 C8 C9 C10]. split; cbn; auto. discriminate. Qed.
Lemma calm_step v0 m w w' : m <> NoManagement -> w_mode w = m -> w_old w = [] -> calm v0 m (w_log w) (w_stored w) (w_cur w) ->
  wmove w w' -> ~ In Reconnected (w_log w') -> w_old w' = [] /\ calm v0 m (w_log w') (w_stored w') (w_cur w').
Proof.
  intros NM M OLD C MV NR. destruct MV as [w o due full WT O0|w due full|w WT|w WT|w|w x|w|w full WT|w i x].
  - unfold on_record in *. rewrite M in *. split; [destruct m; assumption|]. pose proof C as [C1 C2 C3 C4 C5 C6 C7 C8 C9 C10]. destruct m; [contradiction| |].
    + apply (calm_commit v0 Manual); auto; try discriminate; cbn; lia.
    + cbn [set_cur w_log w_cur w_stored]. rewrite <- app_assoc. apply (auto_flush_calm v0 Auto). cbn [app].
      apply (calm_commit v0 Auto _ _ _ (Handed o) (fun l => mark (see o l))); auto; try discriminate; cbn; lia.
  - unfold on_tick. split; [exact OLD|]. cbn [set_cur w_log w_cur w_stored]. rewrite M. apply auto_flush_calm. exact C.
  - unfold on_commit in *. rewrite M in *. pose proof C as [C1 C2 C3 C4 C5 C6 C7 C8 C9 C10]. destruct m; [contradiction| |]; (split; [exact OLD|]); apply calm_commit; auto; try discriminate.
  - unfold flush_begin in *. rewrite M in *. pose proof C as [C1 C2 C3 C4 C5 C6 C7 C8 C9 C10].
    assert (l_comm (e_local (w_cur w)) <=? l_flushed (e_local (w_cur w)) = true -> calm v0 m (FlushOk :: w_log w) (w_stored w) (w_cur w)) as OKC.
    { intros LE. apply calm_ok; [exact C|]. assert (l_flushed (e_local (w_cur w)) = l_comm (e_local (w_cur w))) as E by lia. rewrite E in C7. exact C7. }
    assert (calm v0 m (w_log w) (w_stored w) (mkSession (e_local (w_cur w)) (e_queue (w_cur w) ++ [mkNote (l_comm (e_local (w_cur w))) (Some (e_id (w_cur w)))]) (e_open (w_cur w)) (Some (e_id (w_cur w))) (S (e_id (w_cur w))))) as SND.
    { assert (forall lo, mine (w_stored w) (w_cur w) lo -> mine (w_stored w) (mkSession (e_local (w_cur w)) (e_queue (w_cur w) ++ [mkNote (l_comm (e_local (w_cur w))) (Some (e_id (w_cur w)))]) (e_open (w_cur w)) (Some (e_id (w_cur w))) (S (e_id (w_cur w)))) lo) as MM.
      { intros lo (o & E & O1 & O2). exists o. cbn. split; [assumption|]. split; [assumption|]. intros t IN. apply in_app_or in IN as [IN|[<-|[]]]; [auto|cbn; lia]. }
      assert (-1 <= l_comm (e_local (w_cur w))) as GE. { rewrite C2. apply last_commit_ge. }
      split; cbn; auto.
      - apply sorted_snoc; [assumption|]. intros t IN. cbn. apply C4 in IN. lia.
      - intros t IN. apply in_app_or in IN as [IN|[<-|[]]]; [auto|cbn; lia].
      - destruct C5; auto.
      - destruct C7 as [C7|[C7|C7]]; auto.
      - intros t i IN E. apply in_app_or in IN as [IN|[<-|[]]]; [specialize (C8 t i IN E); lia|]. cbn in E. inversion E. lia.
      - intros i E. inversion E; subst i. split; [lia|]. intros t IN E'. apply in_app_or in IN as [IN|[<-|[]]]; [specialize (C8 t _ IN E'); lia|reflexivity].
      - intros k E. destruct (C10 k E) as [O|[O|O]]; auto. }
    destruct m; [contradiction| |]; destruct (_ <=? _) eqn:LE; (split; [try (destruct (negb _)); exact OLD|]).
    1,3: apply OKC; reflexivity.
    all: destruct (negb _); [apply calm_event; [exact C|exact I|discriminate]|exact SND].
  - split; [exact OLD|]. apply calm_unwait. exact C.
  - unfold on_note in *. destruct (e_queue (w_cur w)) as [|t q] eqn:EQ; [auto|]. split; [exact OLD|].
    pose proof (calm_stored _ _ _ _ _ _ _ C EQ x) as CS. cbn [w_log w_stored w_cur].
    destruct x as [|b|b].
    + destruct (waits_for (w_cur w) t) eqn:WF; cbn [fst snd app]; [|exact CS].
      unfold waits_for in WF. destruct (e_wait (w_cur w)) as [i|] eqn:EW; [|discriminate]. destruct (t_cb t) as [j|] eqn:EC; [|discriminate]. apply Nat.eqb_eq in WF. subst j.
      destruct C as [C1 C2 C3 C4 C5 C6 C7 C8 C9 C10]. destruct (C9 i EW) as (_ & T). rewrite EQ in T. specialize (T t (or_introl eq_refl) EC).
      assert (mine (store_note t Confirmed (w_stored w)) (mkSession (set_flushed (l_comm (e_local (w_cur w))) (e_local (w_cur w))) q (e_open (w_cur w)) None (e_id (w_cur w))) (l_comm (e_local (w_cur w)))) as MN.
      { unfold store_note. cbn [applied]. rewrite T. eexists. split; [reflexivity|]. cbn. split; [lia|]. rewrite EQ in C3. unfold in_order in C3. inversion C3 as [|a b S F]; subst. rewrite Forall_forall in F. intros t' IN. specialize (F t' IN). lia. }
      apply calm_ok; [|right; left; exact MN]. destruct CS as [D1 D2 D3 D4 D5 D6 D7 D8 D9 D10]. split; cbn in *; auto; try lia; try discriminate.
    + assert (calm v0 m (w_log w) (store_note t (Refusal b) (w_stored w)) (mkSession (e_local (w_cur w)) q (e_open (w_cur w)) None (e_id (w_cur w)))) as CU by (apply (calm_unwait _ _ _ _ _ CS)).
      destruct (waits_for (w_cur w) t); cbn [fst snd app]; [apply calm_event; [exact CU|exact I|discriminate]|exact CS].
    + apply calm_quit in CS. cbn [e_local e_id] in CS. cbn [fst snd]. destruct (e_wait (w_cur w)); cbn [app]; [apply calm_event; [exact CS|exact I|discriminate]|exact CS].
  - unfold on_close. split; [exact OLD|]. cbn [set_cur w_log w_stored w_cur]. apply calm_quit in C. destruct (e_wait (w_cur w)); cbn [app]; [apply calm_event; [exact C|exact I|discriminate]|exact C].
  - exfalso. apply NR. unfold on_reconnect. cbn. left; reflexivity.
  - unfold on_old. rewrite OLD. destruct i; cbn; auto.
Qed.
Lemma log_grows w w' : wmove w w' -> exists k, w_log w' = k ++ w_log w.
Proof.
  intros MV. destruct MV; unfold on_record, on_tick, on_commit, flush_begin, flush_cancel, on_note, on_close, on_reconnect, on_old; cbn; try (eexists; reflexivity).
  - destruct (w_mode w); cbn; try (exists [Handed o]; reflexivity). eexists; reflexivity.
  - destruct (w_mode w); cbn; [exists [Refused]|exists [Committed]|exists [Committed]]; reflexivity.
  - destruct (w_mode w); cbn; [exists [FlushErr]; reflexivity| |]; destruct (_ <=? _); cbn; try (exists [FlushOk]; reflexivity); destruct (negb _); cbn; try (exists [FlushErr]; reflexivity); exists []; reflexivity.
  - exists []; reflexivity.
  - destruct (e_queue _); cbn; [exists []; reflexivity|eexists; reflexivity].
  - eexists (Reconnected :: _); reflexivity.
  - destruct (nth_error _ _) as [[|]|]; exists []; reflexivity.
Qed.
Lemma calm_runs m v0 w : m <> NoManagement -> wruns (world0 m v0) w -> ~ In Reconnected (w_log w) ->
  w_old w = [] /\ calm v0 m (w_log w) (w_stored w) (w_cur w).
Proof.
  intros NM R. remember (world0 m v0) as w0 eqn:E. induction R as [w|w w' w'' R IH MV]; subst; intros NR; [split; [reflexivity|apply calm_start]|].
  destruct (log_grows _ _ MV) as (k & EK). specialize (IH eq_refl ltac:(intros X; apply NR; rewrite EK; apply in_or_app; auto)). destruct IH as (O & C).
  eapply calm_step; eauto. apply (mode_runs _ _ _ R).
Qed.

Lemma never_back m v0 w w' : wruns (world0 m v0) w -> wmove w w' -> ~ In Reconnected (w_log w') ->
  (forall k o, v0 = Some k -> In (Handed o) (w_log w') -> k <= o) -> not_before (w_stored w) (w_stored w').
Proof.
  intros R MV NR V. assert (forall v, not_before v v) as NB by (intros [z|]; cbn; lia || exact I).
  destruct (log_grows _ _ MV) as (k & EK).
  assert (m = NoManagement \/ m <> NoManagement) as [->|NM] by (destruct m; [left|right|right]; congruence || reflexivity).
  { rewrite (unmanaged v0 w R). rewrite (unmanaged v0 w' (wruns_step _ _ _ R MV)). apply NB. }
  destruct (calm_runs m v0 w NM R ltac:(intros X; apply NR; rewrite EK; apply in_or_app; auto)) as (O & [C1 C2 C3 C4 C5 C6 C7 C8 C9 C10]).
  destruct MV as [w o due full WT O0|w due full|w WT|w WT|w|w x|w|w full WT|w i x]; unfold on_record, on_tick, on_commit, flush_begin, flush_cancel, on_close, on_reconnect, on_old; cbn; try apply NB.
  - destruct (w_mode w); apply NB.
  - destruct (w_mode w); apply NB.
  - destruct (w_mode w); try apply NB; destruct (_ <=? _); try apply NB; destruct (negb _); apply NB.
  - unfold on_note in *. destruct (e_queue (w_cur w)) as [|t q] eqn:EQ; [apply NB|]. cbn [w_stored w_log] in *. unfold store_note. destruct (applied x); [|apply NB].
    destruct C5 as [C5|(o & -> & O1 & O2)]; [|cbn; apply O2; rewrite EQ; left; reflexivity].
    rewrite C5. destruct v0 as [v|]; [|exact I]. cbn. apply (V v (t_off t) eq_refl). rewrite EK. apply in_or_app. right.
    apply (proj2 (f_cur _ _ (safe_runs _ _ _ R))). rewrite EQ. left; reflexivity.
  - rewrite O. destruct i; apply NB.
Qed.
Lemma flush_stores m v0 w t : wruns (world0 m v0) w -> w_log w = FlushOk :: t -> ~ In Reconnected t ->
  m <> NoManagement /\ (last_commit m t = -1 \/ w_stored w = Some (last_commit m t) \/ m = Auto /\ In (AutoSent (last_commit m t)) t).
Proof.
  intros R E NR.
  assert (m <> NoManagement) as NM.
  { intros ->. assert (~ In FlushOk (w_log w)) as X; [|apply X; rewrite E; left; reflexivity]. clear -R. 
    assert (w_mode w = NoManagement /\ e_queue (w_cur w) = [] /\ (forall q, In q (w_old w) -> q = []) /\ ~ In FlushOk (w_log w)) as (_ & _ & _ & X); [|exact X].
    remember (world0 NoManagement v0) as w0 eqn:E0. induction R as [w|w w' w'' R IH MV]; subst; [cbn; repeat split; auto; contradiction|].
    specialize (IH eq_refl). destruct IH as (M & Q & O & N). split; [rewrite (mode_step _ _ MV); assumption|].
    destruct MV as [w' o due full WT O0|w' due full|w' WT|w' WT|w'|w' x|w'|w' full WT|w' i x];
      unfold on_record, on_tick, on_commit, flush_begin, flush_cancel, on_note, on_close, on_reconnect, on_old, auto_flush; rewrite ?M, ?Q; cbn; auto.
    - repeat split; auto. intros [A|A]; [discriminate|auto].
    - repeat split; auto. intros [A|A]; [discriminate|auto].
    - repeat split; auto. intros [A|A]; [discriminate|auto].
    - repeat split; auto. destruct (e_wait (w_cur w')); [|assumption]. intros [A|A]; [discriminate|auto].
    - split; [reflexivity|]. split; [|intros [A|A]; [discriminate|auto]]. intros q IN. apply in_app_or in IN as [IN|[<-|[]]]; auto.
    - destruct (nth_error (w_old w') i) as [[|t q]|] eqn:EN; auto. apply nth_error_In in EN. apply O in EN. discriminate. }
  split; [exact NM|]. destruct (calm_runs m v0 w NM R ltac:(rewrite E; intros [X|X]; [discriminate|auto])) as (_ & C).
  pose proof (c_ok _ _ _ _ _ C t E) as OK. pose proof (c_comm _ _ _ _ _ C) as CC. rewrite E in CC, OK. cbn [last_commit] in CC. rewrite CC in OK.
  destruct OK as [OK|[(o & OK & O1 & _)|[OK|OK]]]; [auto| |discriminate|].
  - right; left. rewrite OK. f_equal. rewrite CC in O1. lia.
  - destruct m; [contradiction| |auto]. exfalso. assert (~ In (AutoSent (last_commit Manual t)) (w_log w)) as X; [|apply X; rewrite E; right; exact OK].
    generalize (last_commit Manual t). clear -R. intros z. assert (w_mode w = Manual) as M by apply (mode_runs _ _ _ R). revert M.
    remember (world0 Manual v0) as w0 eqn:E0. induction R as [w|w w' w'' R IH MV]; intros M; subst; [cbn; auto|]. pose proof (mode_step _ _ MV) as EM. rewrite EM in M. specialize (IH eq_refl M).
    destruct MV as [w' o due full WT O0|w' due full|w' WT|w' WT|w'|w' x|w'|w' full WT|w' i x];
      unfold on_record, on_tick, on_commit, flush_begin, flush_cancel, on_note, on_close, on_reconnect, on_old, auto_flush; rewrite ?M; cbn; auto.
    + intros [A|A]; [discriminate|auto].
    + intros [A|A]; [discriminate|auto].
    + destruct (_ <=? _); cbn; [|destruct (negb _); cbn; auto]; intros [A|A]; (discriminate || auto).
    + destruct (e_queue (w_cur w')) as [|t' q]; cbn; auto. destruct x; cbn; [destruct (waits_for _ _)|destruct (waits_for _ _)|destruct (e_wait _)]; cbn; auto; intros [A|A]; (discriminate || auto).
    + destruct (e_wait _); cbn; auto. intros [A|A]; (discriminate || auto).
    + intros [A|A]; [discriminate|auto].
    + destruct (nth_error (w_old w') i) as [[|t' q]|]; auto.
Qed.
