(** Proofs about a shared connection. *)
From Coq Require Import Lia.
From Verif Require Import MuxModel MuxSpec.

(** * Versions *)

Lemma lookup_none table key lo hi : lo <= hi -> lookup_version table key lo hi = None ->
  forall e, In e table -> v_key e = wrap_s 16 key -> v_max e < lo \/ hi < v_min e.
Proof.
  intros L. induction table as [|v table IH]; cbn; intros H e I K; [destruct I|].
  destruct (v_key v =? wrap_s 16 key) eqn:Q.
  - destruct ((v_max v >=? lo) && (v_min v <=? hi)) eqn:R; [discriminate|]. destruct I as [->|I]; [|exact (IH H e I K)].
    apply andb_false_iff in R. rewrite Z.geb_leb in R. rewrite !Z.leb_gt in R. lia.
  - destruct I as [->|I]; [apply Z.eqb_neq in Q; contradiction|exact (IH H e I K)].
Qed.
Lemma lookup_some table key lo hi v : lookup_version table key lo hi = Some v ->
  exists e, In e table /\ v_key e = wrap_s 16 key /\ lo <= v_max e /\ v_min e <= hi /\ v = Z.min hi (v_max e).
Proof.
  induction table as [|e table IH]; cbn; intros H; [discriminate|].
  destruct (v_key e =? wrap_s 16 key) eqn:Q.
  - destruct ((v_max e >=? lo) && (v_min e <=? hi)) eqn:R.
    + injection H as <-. apply andb_true_iff in R. rewrite Z.geb_leb in R. rewrite !Z.leb_le in R. apply Z.eqb_eq in Q.
      exists e. split; [left; reflexivity|]. split; [exact Q|]. lia.
    + destruct (IH H) as (e' & I & X). exists e'. split; [right; exact I|exact X].
  - destruct (IH H) as (e' & I & X). exists e'. split; [right; exact I|exact X].
Qed.
Lemma proper_unique table e e' : proper table -> In e table -> In e' table -> v_key e = v_key e' -> e = e'.
Proof.
  intros [N _]. induction table as [|x table IH]; cbn; intros I I' K; [destruct I|]. inversion N as [|? ? NI N']; subst.
  destruct I as [->|I], I' as [->|I'].
  - reflexivity.
  - destruct NI. rewrite K. apply in_map. exact I'.
  - destruct NI. rewrite <- K. apply in_map. exact I.
  - exact (IH N' I I' K).
Qed.
Lemma version_chosen table key lo hi v : proper table -> lo <= hi -> lookup_version table key lo hi = Some v ->
  lo <= v <= hi /\ supports table (wrap_s 16 key) v
  /\ forall v', lo <= v' <= hi -> supports table (wrap_s 16 key) v' -> v' <= v.
Proof.
  intros P L H. destruct (lookup_some _ _ _ _ _ H) as (e & I & K & H1 & H2 & ->). pose proof (proj2 P e I) as R.
  split; [lia|]. split; [exists e; split; [exact I|]; split; [exact K|lia]|].
  intros v' R' (e' & I' & K' & H'). assert (e' = e) by (apply (proper_unique table); [exact P|exact I'|exact I|congruence]). subst e'. lia.
Qed.
Lemma version_none table key lo hi : proper table -> lo <= hi ->
  (lookup_version table key lo hi = None <-> forall v, lo <= v <= hi -> ~ supports table (wrap_s 16 key) v).
Proof.
  intros P L. split.
  - intros H v R (e & I & K & H'). destruct (lookup_none _ _ _ _ L H e I K); lia.
  - intros H. destruct (lookup_version table key lo hi) as [v|] eqn:E; [|reflexivity].
    destruct (version_chosen _ _ _ _ _ P L E) as (R & S & _). destruct (H v R S).
Qed.

Lemma sent_version table key lo hi default v : lookup_version table key lo hi = Some v ->
  header_version default (lookup_version table key lo hi) = v.
Proof. intros ->. reflexivity. Qed.
Lemma unsupported_sent : exists table key lo hi default, proper table /\ lo <= default <= hi
  /\ lookup_version table key lo hi = None
  /\ ~ supports table (wrap_s 16 key) (header_version default (lookup_version table key lo hi)).
Proof.
  exists [mkV 1003 10 12], 1003, 0, 5, 5. split; [|split; [lia|]].
  - split; [repeat constructor; intros []|]. intros e [<-|[]]. cbn. lia.
  - split; [reflexivity|]. intros (e & [<-|[]] & _ & H). cbn in H. lia.
Qed.

(** * The connection: what a step does to a request *)

Section Mux.
Context {B : Type}.
Notation mux := (mux B).
Notation req := (req B).
Notation maction := (maction B).
Implicit Types (s : mux) (q : req) (r : task) (b : B).

Lemma set_same f r q : set (B := B) f r q r = q.
Proof. unfold set. rewrite Nat.eqb_refl. reflexivity. Qed.
Lemma set_other f r r' q : r' <> r -> set (B := B) f r q r' = f r'.
Proof. intros H. unfold set. destruct (Nat.eqb_spec r' r); [contradiction|reflexivity]. Qed.

Inductive moves (q : req) (r : task) : maction -> where_q (B := B) -> Prop :=
  | mv_insert : q_at q = QHasId -> moves q r (Insert r) QInserted
  | mv_listen : q_at q = QInserted -> q_kind q = Serial -> moves q r (Listen r) QListening
  | mv_send : q_at q = QListening -> q_kind q = Serial -> moves q r (Send r) QWaiting
  | mv_stream c : q_at q = QInserted -> q_kind q = Queue c -> moves q r (Send r) QStream
  | mv_woken : q_at q = QWaiting -> q_note q = true -> moves q r (Notified r) QWoken
  | mv_response b : q_at q = QWoken -> q_slot q = Some b -> moves q r (Finish r) (QDone (Response b))
  | mv_closed : q_at q = QWoken -> q_slot q = None -> moves q r (Finish r) (QDone Closed)
  | mv_timeout : q_at q = QWaiting -> moves q r (Timeout r) QTimingOut
  | mv_timedout : q_at q = QTimingOut -> moves q r (FinishTimeout r) (QDone TimedOut).

Inductive change (s : mux) (a : maction) (r : task) (q q' : req) : Prop :=
  | ch_same : q' = q -> change s a r q q'
  | ch_start k : a = Start r k -> q_at q = QNone -> q' = mkQ k (x_started s) (x_next s) QHasId None false [] false [] -> change s a r q q'
  | ch_move w : moves q r a w -> q' = at_ w q -> change s a r q q'
  | ch_over o : (o = SendFailed \/ o = Cancelled) -> q_at q <> QNone -> a = SendFail r \/ a = Cancel r -> q' = over o q -> change s a r q q'
  | ch_put m : is_queue q = false -> (exists i, In (i, r) (x_senders s)) \/ (exists l, x_disp s = DClosing l /\ In r l) ->
      (m = None /\ (a = CloseNext \/ a = Terminate) \/ exists i b, m = Some b /\ a = Frame i b /\ In (i, r) (x_senders s)) ->
      q' = put m q -> change s a r q q'
  | ch_push m : is_queue q = true -> q_closed q = false ->
      (m = None /\ a = CloseNext /\ (exists l, x_disp s = DClosing (r :: l))
       \/ (exists i b, m = Some b /\ a = Frame i b /\ In (i, r) (x_senders s))
       \/ (exists b, m = Some b /\ a = Unblock /\ x_disp s = DBlocked r b)) ->
      q' = push m q -> change s a r q q'
  | ch_pop : a = Pop r -> q_at q = QStream -> q_queue q <> [] -> q' = pop q -> change s a r q q'
  | ch_shut : a = Terminate -> is_queue q = true -> (exists i, In (i, r) (x_senders s)) -> q' = shut q -> change s a r q q'.

Lemma find_sender_In i l r : find_sender i l = Some r -> In (i, r) l.
Proof.
  unfold find_sender. destruct (find _ l) as [[i' r']|] eqn:E; [|discriminate]. intros H. injection H as <-.
  apply find_some in E. destruct E as [I E]. cbn in E. apply Z.eqb_eq in E. subst. exact I.
Qed.
Lemma find_sender_spec i l r : NoDup (map fst l) -> (find_sender i l = Some r <-> In (i, r) l).
Proof.
  intros N. split; [apply find_sender_In|]. induction l as [|[i' r'] l IH]; cbn; intros I; [destruct I|].
  inversion N as [|? ? NI N']; subst. unfold find_sender. cbn. destruct (i' =? i) eqn:E.
  - apply Z.eqb_eq in E. subst. destruct I as [X|I]; [injection X as ->; reflexivity|]. destruct NI.
    change i with (fst (i, r)). apply in_map. exact I.
  - destruct I as [X|I]; [injection X as -> ->; apply Z.eqb_neq in E; contradiction|]. exact (IH N' I).
Qed.

Definition blocked_queue s := forall t b, x_disp s = DBlocked t b -> is_queue (x_reqs s t) = true.

Lemma step_change s a s' r : blocked_queue s -> mstep s a = Some s' -> change s a r (x_reqs s r) (x_reqs s' r).
Proof.
  intros BQ E. destruct a as [t k|t|t|t|t|i b| |t|t|t|t|t|t| | |]; cbn in E.
  - destruct (q_at (x_reqs s t)) eqn:A; try discriminate. injection E as <-. cbn.
    destruct (Nat.eq_dec r t) as [->|N]; [rewrite set_same|rewrite set_other by exact N; apply ch_same; reflexivity].
    eapply ch_start; [reflexivity|exact A|reflexivity].
  - destruct (q_at (x_reqs s t)) eqn:A, (unlocked s); try discriminate. injection E as <-. cbn.
    destruct (Nat.eq_dec r t) as [->|N]; [rewrite set_same|rewrite set_other by exact N; apply ch_same; reflexivity].
    eapply ch_move; [apply mv_insert; exact A|reflexivity].
  - destruct (q_at (x_reqs s t)) eqn:A, (q_kind (x_reqs s t)) eqn:K; try discriminate. injection E as <-. cbn.
    destruct (Nat.eq_dec r t) as [->|N]; [rewrite set_same|rewrite set_other by exact N; apply ch_same; reflexivity].
    eapply ch_move; [apply mv_listen; assumption|reflexivity].
  - destruct (q_at (x_reqs s t)) eqn:A, (q_kind (x_reqs s t)) eqn:K; try discriminate; injection E as <-; cbn;
    (destruct (Nat.eq_dec r t) as [->|N]; [rewrite set_same|rewrite set_other by exact N; apply ch_same; reflexivity]).
    + eapply ch_move; [eapply mv_stream; eassumption|reflexivity].
    + eapply ch_move; [apply mv_send; assumption|reflexivity].
  - destruct (q_at (x_reqs s t)) eqn:A, (q_kind (x_reqs s t)) eqn:K; try discriminate; injection E as <-; cbn;
    (destruct (Nat.eq_dec r t) as [->|N]; [rewrite set_same|rewrite set_other by exact N; apply ch_same; reflexivity]);
    (eapply ch_over; [left; reflexivity|congruence|left; reflexivity|reflexivity]).
  - destruct (x_disp s) eqn:D; try discriminate. injection E as <-. unfold send.
    destruct (find_sender i (x_senders s)) as [t|] eqn:F; [|apply ch_same; reflexivity]. apply find_sender_In in F.
    destruct (is_queue (x_reqs s t)) eqn:Q.
    + destruct (q_closed (x_reqs s t)) eqn:C; [apply ch_same; reflexivity|]. destruct (room (x_reqs s t)); [|apply ch_same; reflexivity].
      cbn. destruct (Nat.eq_dec r t) as [->|N]; [rewrite set_same|rewrite set_other by exact N; apply ch_same; reflexivity].
      eapply ch_push; [exact Q|exact C| |reflexivity]. right. left. exists i, b. split; [reflexivity|split; [reflexivity|exact F]].
    + cbn. destruct (Nat.eq_dec r t) as [->|N]; [rewrite set_same|rewrite set_other by exact N; apply ch_same; reflexivity].
      eapply ch_put; [exact Q|left; exists i; exact F| |reflexivity]. right. exists i, b. split; [reflexivity|split; [reflexivity|exact F]].
  - destruct (x_disp s) as [|t b| |] eqn:D; try discriminate. destruct (q_closed (x_reqs s t)) eqn:C.
    + injection E as <-. apply ch_same. reflexivity.
    + destruct (room (x_reqs s t)); [|discriminate]. injection E as <-. cbn.
      destruct (Nat.eq_dec r t) as [->|N]; [rewrite set_same|rewrite set_other by exact N; apply ch_same; reflexivity].
      eapply ch_push; [exact (BQ t b D)|exact C| |reflexivity]. right. right. exists b. split; [reflexivity|split; [reflexivity|exact D]].
  - destruct (q_at (x_reqs s t)) eqn:A, (q_note (x_reqs s t)) eqn:K; try discriminate. injection E as <-. cbn.
    destruct (Nat.eq_dec r t) as [->|N]; [rewrite set_same|rewrite set_other by exact N; apply ch_same; reflexivity].
    eapply ch_move; [apply mv_woken; assumption|reflexivity].
  - destruct (q_at (x_reqs s t)) eqn:A, (unlocked s); try discriminate. injection E as <-. cbn.
    destruct (Nat.eq_dec r t) as [->|N]; [rewrite set_same|rewrite set_other by exact N; apply ch_same; reflexivity].
    destruct (q_slot (x_reqs s t)) as [b|] eqn:S.
    + eapply ch_move; [eapply mv_response; eassumption|reflexivity].
    + eapply ch_move; [apply mv_closed; assumption|reflexivity].
  - destruct (q_at (x_reqs s t)) eqn:A; try discriminate. injection E as <-. cbn.
    destruct (Nat.eq_dec r t) as [->|N]; [rewrite set_same|rewrite set_other by exact N; apply ch_same; reflexivity].
    eapply ch_move; [apply mv_timeout; assumption|reflexivity].
  - destruct (q_at (x_reqs s t)) eqn:A, (unlocked s); try discriminate. injection E as <-. cbn.
    destruct (Nat.eq_dec r t) as [->|N]; [rewrite set_same|rewrite set_other by exact N; apply ch_same; reflexivity].
    eapply ch_move; [apply mv_timedout; assumption|reflexivity].
  - assert (X : s' = with_req s t (over Cancelled (x_reqs s t)) /\ q_at (x_reqs s t) <> QNone).
    { destruct (q_at (x_reqs s t)); try discriminate; injection E as <-; (split; [reflexivity|discriminate]). }
    destruct X as [-> A]. cbn.
    destruct (Nat.eq_dec r t) as [->|N]; [rewrite set_same|rewrite set_other by exact N; apply ch_same; reflexivity].
    eapply ch_over; [right; reflexivity|exact A|right; reflexivity|reflexivity].
  - destruct (q_at (x_reqs s t)) eqn:A; try discriminate. destruct (q_queue (x_reqs s t)) eqn:Q; [discriminate|]. injection E as <-. cbn.
    destruct (Nat.eq_dec r t) as [->|N]; [rewrite set_same|rewrite set_other by exact N; apply ch_same; reflexivity].
    apply ch_pop; [reflexivity|exact A|rewrite Q; discriminate|reflexivity].
  - destruct (x_disp s); try discriminate. injection E as <-. apply ch_same. reflexivity.
  - destruct (x_disp s) as [| |[|t l]|] eqn:D; try discriminate; [injection E as <-; apply ch_same; reflexivity|].
    destruct (is_queue (x_reqs s t)) eqn:Q; [destruct (q_closed (x_reqs s t)) eqn:C; [|destruct (room (x_reqs s t)); [|discriminate]]|];
      injection E as <-; cbn; try (apply ch_same; reflexivity).
    + destruct (Nat.eq_dec r t) as [->|N]; [rewrite set_same|rewrite set_other by exact N; apply ch_same; reflexivity].
      eapply ch_push; [exact Q|exact C|left; split; [reflexivity|split; [reflexivity|exists l; exact D]]|reflexivity].
    + destruct (Nat.eq_dec r t) as [->|N]; [rewrite set_same|rewrite set_other by exact N; apply ch_same; reflexivity].
      eapply ch_put; [exact Q|right; exists (t :: l); split; [exact D|left; reflexivity]|left; split; [reflexivity|left; reflexivity]|reflexivity].
  - destruct (x_disp s) eqn:D; try discriminate. injection E as <-. cbn.
    destruct (existsb (fun e => Nat.eqb (snd e) r) (x_senders s)) eqn:X; [|apply ch_same; reflexivity].
    apply existsb_exists in X. destruct X as ([i t] & I & X). cbn in X. apply Nat.eqb_eq in X. subst t.
    destruct (is_queue (x_reqs s r)) eqn:Q.
    + apply ch_shut; [reflexivity|exact Q|exists i; exact I|reflexivity].
    + eapply ch_put; [exact Q|left; exists i; exact I|left; split; [reflexivity|right; reflexivity]|reflexivity].
Qed.

(** * What never changes *)

Definition early (w : where_q (B := B)) : bool := match w with QNone | QHasId => true | _ => false end.
Definition unsent (w : where_q (B := B)) : bool := match w with QNone | QHasId | QInserted | QListening => true | _ => false end.

Lemma change_made s a r q q' : change s a r q q' -> q_at q <> QNone ->
  q_id q' = q_id q /\ q_no q' = q_no q /\ q_kind q' = q_kind q /\ q_at q' <> QNone
  /\ (early (q_at q) = false -> early (q_at q') = false) /\ (unsent (q_at q) = false -> unsent (q_at q') = false).
Proof.
  intros C M. destruct C as [->|k -> N ->|w V ->|o O N A ->|m Q I A ->|m Q I A ->| -> N Q ->| -> Q I ->];
    try (cbn; repeat split; tauto).
  - destruct V; cbn; repeat split; try congruence; intros U; try reflexivity;
      match goal with A : q_at q = _ |- _ => rewrite A in U end; discriminate.
  - unfold over. destruct (is_queue q); cbn; repeat split; intros; congruence.
Qed.
Lemma change_none s a r q q' : change s a r q q' -> q_at q = QNone -> q' = q \/ q_at q' = QNone \/ exists k, a = Start r k.
Proof.
  intros C M. destruct C as [->|k -> N ->|w V ->|o O N A ->|m Q I A ->|m Q I A ->| -> N Q ->| -> Q I ->].
  - left; reflexivity.
  - right; right; exists k; reflexivity.
  - destruct V; congruence.
  - contradiction.
  - right; left; exact M.
  - right; left; exact M.
  - congruence.
  - right; left; exact M.
Qed.

Lemma frames_step s a s' : mstep s a = Some s' ->
  x_frames s' = x_frames s ++ match a with Frame i b => [(i, b)] | _ => [] end.
Proof.
  intros E. destruct a as [t k|t|t|t|t|i b| |t|t|t|t|t|t| | |]; cbn in E; rewrite ?app_nil_r;
    repeat match type of E with context [match ?x with _ => _ end] => destruct x eqn:?; try discriminate end;
    injection E as <-; try reflexivity.
  unfold send. destruct (find_sender i (x_senders s)) as [t|]; [|reflexivity].
  destruct (is_queue _); [|reflexivity]. destruct (q_closed _); [reflexivity|]. destruct (room _); reflexivity.
Qed.
Lemma sent_step s a s' : mstep s a = Some s' ->
  x_sent s' = x_sent s ++ match a with Send r => [(q_id (x_reqs s r), r)] | _ => [] end.
Proof.
  intros E. destruct a as [t k|t|t|t|t|i b| |t|t|t|t|t|t| | |]; cbn in E; rewrite ?app_nil_r;
    repeat match type of E with context [match ?x with _ => _ end] => destruct x eqn:?; try discriminate end;
    injection E as <-; try reflexivity.
  unfold send. destruct (find_sender i (x_senders s)) as [t|]; [|reflexivity].
  destruct (is_queue _); [|reflexivity]. destruct (q_closed _); [reflexivity|]. destruct (room _); reflexivity.
Qed.
Lemma count_step s a s' : mstep s a = Some s' ->
  match a with
  | Start _ _ => x_started s' = x_started s + 1 /\ x_next s' = wrap_s 32 (x_next s + 1)
  | _ => x_started s' = x_started s /\ x_next s' = x_next s
  end.
Proof.
  intros E. destruct a as [t k|t|t|t|t|i b| |t|t|t|t|t|t| | |]; cbn in E;
    repeat match type of E with context [match ?x with _ => _ end] => destruct x eqn:?; try discriminate end;
    injection E as <-; try (split; reflexivity).
  unfold send. destruct (find_sender i (x_senders s)) as [t|]; [|split; reflexivity].
  destruct (is_queue _); [|split; reflexivity]. destruct (q_closed _); [split; reflexivity|]. destruct (room _); split; reflexivity.
Qed.
Lemma senders_step s a s' : mstep s a = Some s' ->
  match a with
  | Insert r =>
      q_at (x_reqs s r) = QHasId /\ unlocked s = true
      /\ x_senders s' = remove (q_id (x_reqs s r))
           (if is_queue (x_reqs s r) then filter (fun e => negb (is_queue (x_reqs s (snd e)) && q_closed (x_reqs s (snd e)))) (x_senders s)
            else x_senders s) ++ [(q_id (x_reqs s r), r)]
  | Finish r => q_at (x_reqs s r) = QWoken /\ unlocked s = true /\ x_senders s' = remove (q_id (x_reqs s r)) (x_senders s)
  | FinishTimeout r => q_at (x_reqs s r) = QTimingOut /\ unlocked s = true /\ x_senders s' = remove (q_id (x_reqs s r)) (x_senders s)
  | _ => x_senders s' = x_senders s
  end.
Proof.
  intros E. destruct a as [t k|t|t|t|t|i b| |t|t|t|t|t|t| | |]; cbn in E;
    repeat match type of E with context [match ?x with _ => _ end] => destruct x eqn:?; try discriminate end;
    injection E as <-; try reflexivity; try (split; [assumption|split; [assumption|reflexivity]]);
    try (repeat split; assumption).
  unfold send. destruct (find_sender i (x_senders s)) as [t|]; [|reflexivity].
  destruct (is_queue _); [|reflexivity]. destruct (q_closed _); [reflexivity|]. destruct (room _); reflexivity.
Qed.

Definition holds (q : req) (b : B) : Prop :=
  q_slot q = Some b \/ In (Some b) (q_queue q) \/ In (Some b) (q_got q) \/ q_at q = QDone (Response b).

Record inv (s : mux) : Prop := mkInv {
  i_senders : forall i r, In (i, r) (x_senders s) -> q_id (x_reqs s r) = i /\ early (q_at (x_reqs s r)) = false;
  i_nodup : NoDup (map fst (x_senders s));
  i_blocked : forall r b, x_disp s = DBlocked r b ->
    is_queue (x_reqs s r) = true /\ early (q_at (x_reqs s r)) = false /\ In (q_id (x_reqs s r), b) (x_frames s);
  i_holds : forall r b, holds (x_reqs s r) b -> q_at (x_reqs s r) <> QNone /\ In (q_id (x_reqs s r), b) (x_frames s);
  i_count : 0 <= x_started s;
  i_next : x_next s = wrap_s 32 (1 + x_started s);
  i_no : forall r, made s r -> 0 <= q_no (x_reqs s r) < x_started s /\ q_id (x_reqs s r) = wrap_s 32 (1 + q_no (x_reqs s r));
  i_inj : forall r r', made s r -> made s r' -> q_no (x_reqs s r) = q_no (x_reqs s r') -> r = r';
  i_sent : forall i r, In (i, r) (x_sent s) -> q_id (x_reqs s r) = i /\ unsent (q_at (x_reqs s r)) = false
}.

Lemma inv_blocked_queue s : inv s -> blocked_queue s.
Proof. intros I t b D. apply (i_blocked _ I t b D). Qed.
Lemma early_made w : early w = false -> w <> QNone.
Proof. intros H ->. discriminate. Qed.
Lemma unsent_early w : unsent w = false -> early w = false.
Proof. destruct w; cbn; congruence. Qed.

Lemma In_remove i l (e : Z * task) : In e (remove i l) <-> In e l /\ fst e <> i.
Proof.
  unfold remove. rewrite filter_In. rewrite negb_true_iff, Z.eqb_neq. reflexivity.
Qed.
Lemma NoDup_filter_fst (f : Z * task -> bool) l : NoDup (map fst l) -> NoDup (map fst (filter f l)).
Proof.
  induction l as [|e l IH]; cbn; intros N; [constructor|]. inversion N as [|? ? NI N']; subst.
  destruct (f e); [cbn; constructor; [|exact (IH N')]|exact (IH N')].
  intros I. apply NI. apply in_map_iff in I. destruct I as (e' & <- & I). apply filter_In in I. apply in_map. apply I.
Qed.
Lemma wrap_s_succ n x : 0 < n -> wrap_s n (wrap_s n x + 1) = wrap_s n (x + 1).
Proof.
  intros H. unfold wrap_s. f_equal.
  replace ((x + 2 ^ (n - 1)) mod 2 ^ n - 2 ^ (n - 1) + 1 + 2 ^ (n - 1)) with ((x + 2 ^ (n - 1)) mod 2 ^ n + 1) by lia.
  rewrite Zplus_mod_idemp_l. f_equal. lia.
Qed.

Lemma disp_step s a s' r b : mstep s a = Some s' -> x_disp s' = DBlocked r b ->
  x_disp s = DBlocked r b
  \/ exists i, a = Frame i b /\ In (i, r) (x_senders s) /\ is_queue (x_reqs s r) = true /\ x_disp s = DIdle
       /\ q_closed (x_reqs s r) = false /\ room (x_reqs s r) = false.
Proof.
  intros E D. destruct a as [t k|t|t|t|t|i b'| |t|t|t|t|t|t| | |]; cbn in E.
  6: {
    destruct (x_disp s) eqn:DI; try discriminate. injection E as <-. unfold send in D.
    destruct (find_sender i (x_senders s)) as [t|] eqn:F; [|cbn in D; congruence]. apply find_sender_In in F.
    destruct (is_queue (x_reqs s t)) eqn:Q; [|cbn in D; congruence].
    destruct (q_closed (x_reqs s t)) eqn:C; [cbn in D; congruence|].
    destruct (room (x_reqs s t)) eqn:R; cbn in D; [congruence|]. injection D as -> ->. right. exists i. auto 10. }
  all: repeat match type of E with context [match ?x with _ => _ end] => destruct x eqn:?; try discriminate end;
    injection E as <-; cbn in D; try discriminate; left; congruence.
Qed.

Lemma inv_new : inv new_mux.
Proof.
  constructor; cbn; try (intros; contradiction); try (intros; discriminate).
  - constructor.
  - intros r b [H|[H|[H|H]]]; try discriminate; contradiction.
  - reflexivity.
Qed.

Lemma change_holds s a r q q' b : inv s -> q = x_reqs s r -> change s a r q q' -> holds q' b ->
  holds q b \/ (exists i, a = Frame i b /\ In (i, r) (x_senders s)) \/ x_disp s = DBlocked r b.
Proof.
  intros I EQ C H. destruct C as [->|k -> N ->|w V ->|o O N A ->|m Q IN A ->|m Q IN A ->| -> N Q ->| -> Q IN ->].
  - left; exact H.
  - destruct H as [H|[H|[H|H]]]; cbn in H; try discriminate; contradiction.
  - destruct H as [H|[H|[H|H]]]; cbn in H; left.
    + left; exact H.
    + right; left; exact H.
    + right; right; left; exact H.
    + subst w. inversion V. left. assumption.
  - unfold over in H. left. destruct (is_queue q); destruct H as [H|[H|[H|H]]]; cbn in H;
      try (left; exact H); try (right; left; exact H); try (right; right; left; exact H); injection H as ->; destruct O; discriminate.
  - destruct H as [H|[H|[H|H]]]; cbn in H.
    + subst m. destruct A as [[A _]|(i & b' & A & -> & IN')]; [discriminate|]. injection A as <-. right. left. exists i. auto.
    + left; right; left; exact H.
    + left; right; right; left; exact H.
    + left; right; right; right; exact H.
  - destruct H as [H|[H|[H|H]]]; cbn in H.
    + left; left; exact H.
    + apply in_app_iff in H. destruct H as [H|[->|[]]]; [left; right; left; exact H|].
      destruct A as [[A _]|[(i & b' & A & -> & IN')|(b' & A & -> & D)]]; [discriminate| |].
      * injection A as <-. right. left. exists i. auto.
      * injection A as <-. right. right. exact D.
    + left; right; right; left; exact H.
    + left; right; right; right; exact H.
  - left. destruct H as [H|[H|[H|H]]]; cbn in H.
    + left; exact H.
    + right; left. destruct (q_queue q); [destruct H|right; exact H].
    + apply in_app_iff in H. destruct H as [H|H]; [right; right; left; exact H|].
      destruct (q_queue q) as [|m l] eqn:QQ; [destruct H|]. destruct H as [H|[]]. right; left. rewrite QQ, H. left; reflexivity.
    + right; right; right; exact H.
  - left. exact H.
Qed.

Lemma inv_step s a s' : inv s -> mstep s a = Some s' -> inv s'.
Proof.
  intros I E. pose proof (inv_blocked_queue s I) as BQ.
  assert (CH : forall r, change s a r (x_reqs s r) (x_reqs s' r)) by (intros r; exact (step_change s a s' r BQ E)).
  assert (KEEP : forall r, q_at (x_reqs s r) <> QNone -> q_id (x_reqs s' r) = q_id (x_reqs s r) /\ q_no (x_reqs s' r) = q_no (x_reqs s r)
      /\ q_kind (x_reqs s' r) = q_kind (x_reqs s r) /\ q_at (x_reqs s' r) <> QNone
      /\ (early (q_at (x_reqs s r)) = false -> early (q_at (x_reqs s' r)) = false)
      /\ (unsent (q_at (x_reqs s r)) = false -> unsent (q_at (x_reqs s' r)) = false)).
  { intros r M. exact (change_made _ _ _ _ _ (CH r) M). }
  pose proof (frames_step _ _ _ E) as FR. pose proof (sent_step _ _ _ E) as ST. pose proof (count_step _ _ _ E) as CT.
  pose proof (senders_step _ _ _ E) as SE.
  assert (FIN : forall x, In x (x_frames s) -> In x (x_frames s')) by (intros x H; rewrite FR; apply in_app_iff; left; exact H).
  assert (OLD : forall i r, In (i, r) (x_senders s) -> q_id (x_reqs s' r) = i /\ early (q_at (x_reqs s' r)) = false).
  { intros i r H. destruct (i_senders _ I i r H) as [H1 H2]. destruct (KEEP r (early_made _ H2)) as (K1 & _ & _ & _ & K5 & _).
    split; [congruence|exact (K5 H2)]. }
  assert (MADE : forall r, made s' r -> made s r \/ (exists k, a = Start r k)).
  { intros r M. destruct (q_at (x_reqs s r)) eqn:A; try (left; unfold made; rewrite A; discriminate).
    destruct (change_none _ _ _ _ _ (CH r) A) as [X|[X|X]]; [|contradiction|right; exact X]. rewrite <- X in A. contradiction. }
  assert (NEW : forall r k, a = Start r k -> x_reqs s' r = mkQ k (x_started s) (x_next s) QHasId None false [] false [] /\ q_at (x_reqs s r) = QNone).
  { intros r k ->. cbn in E. destruct (q_at (x_reqs s r)); try discriminate. injection E as <-. cbn. rewrite set_same. split; reflexivity. }
  constructor.
  - destruct a as [t k|t|t|t|t|i0 b| |t|t|t|t|t|t| | |]; try (rewrite SE; exact OLD).
    + destruct SE as (A & U & SE). intros i r H. rewrite SE in H. apply in_app_iff in H. destruct H as [H|[H|[]]].
      * apply In_remove in H. destruct H as [H _]. apply OLD. destruct (is_queue _); [apply filter_In in H; apply H|exact H].
      * injection H as <- <-. destruct (KEEP t) as (K1 & _); [congruence|]. split; [exact K1|].
        cbn in E. rewrite A, U in E. injection E as <-. cbn. rewrite set_same. reflexivity.
    + destruct SE as (A & U & SE). intros i r H. rewrite SE in H. apply In_remove in H. apply OLD. apply H.
    + destruct SE as (A & U & SE). intros i r H. rewrite SE in H. apply In_remove in H. apply OLD. apply H.
  - pose proof (i_nodup _ I) as N.
    destruct a as [t k|t|t|t|t|i0 b| |t|t|t|t|t|t| | |]; try (rewrite SE; exact N).
    + destruct SE as (A & U & SE). rewrite SE, map_app. cbn.
      set (l := if is_queue _ then _ else _). assert (NL : NoDup (map fst l)).
      { unfold l. destruct (is_queue _); [apply NoDup_filter_fst|]; exact N. }
      clearbody l. set (i := q_id _). clearbody i. clear - NL.
      assert (NR : NoDup (map fst (remove i l))) by (apply NoDup_filter_fst; exact NL).
      assert (NI : ~ In i (map fst (remove i l))).
      { intros X. apply in_map_iff in X. destruct X as (e & X & Y). apply In_remove in Y. tauto. }
      revert NR NI. generalize (map fst (remove i l)). intros m. induction m as [|x m IH]; cbn; intros NR NI; [constructor; [tauto|constructor]|].
      inversion NR; subst. constructor; [|apply IH; tauto]. rewrite in_app_iff. cbn. intros [X|[X|[]]]; [contradiction|]. apply NI. left; congruence.
    + destruct SE as (A & U & SE). rewrite SE. apply NoDup_filter_fst. exact N.
    + destruct SE as (A & U & SE). rewrite SE. apply NoDup_filter_fst. exact N.
  - intros r b D. destruct (disp_step _ _ _ _ _ E D) as [D0|(i & EA & IN & Q & D0 & C & R)].
    + destruct (i_blocked _ I r b D0) as (Q & EE & F). destruct (KEEP r (early_made _ EE)) as (K1 & K2 & K3 & K4 & K5 & _).
      split; [unfold is_queue in *; rewrite K3; exact Q|]. split; [exact (K5 EE)|]. rewrite K1. apply FIN. exact F.
    + destruct (i_senders _ I i r IN) as [H1 EE]. destruct (KEEP r (early_made _ EE)) as (K1 & K2 & K3 & K4 & K5 & _).
      split; [unfold is_queue in *; rewrite K3; exact Q|]. split; [exact (K5 EE)|]. rewrite K1, H1, FR, EA. apply in_app_iff. right. left. reflexivity.
  - intros r b H. destruct (change_holds _ _ _ _ _ _ I eq_refl (CH r) H) as [H0|[(i & EA & IN)|D]].
    + destruct (i_holds _ I r b H0) as [M F]. destruct (KEEP r M) as (K1 & K2 & K3 & K4 & _). split; [exact K4|]. rewrite K1. apply FIN. exact F.
    + destruct (i_senders _ I i r IN) as [H1 EE]. destruct (KEEP r (early_made _ EE)) as (K1 & K2 & K3 & K4 & _).
      split; [exact K4|]. rewrite K1, H1, FR, EA. apply in_app_iff. right. left. reflexivity.
    + destruct (i_blocked _ I r b D) as (Q & EE & F). destruct (KEEP r (early_made _ EE)) as (K1 & K2 & K3 & K4 & _).
      split; [exact K4|]. rewrite K1. apply FIN. exact F.
  - pose proof (i_count _ I). destruct a; lia.
  - pose proof (i_next _ I) as NX. destruct a; destruct CT as [CT1 CT2]; rewrite CT1, CT2; try exact NX.
    rewrite NX, wrap_s_succ by lia. f_equal. lia.
  - intros r M. destruct (MADE r M) as [M0|[k EA]].
    + destruct (i_no _ I r M0) as [H1 H2]. destruct (KEEP r M0) as (K1 & K2 & _). rewrite K1, K2. split; [|exact H2]. destruct a; lia.
    + destruct (NEW r k EA) as [NW _]. rewrite NW. cbn. rewrite EA in CT. pose proof (i_count _ I). split; [lia|exact (i_next _ I)].
  - assert (X : forall r r' k, made s r -> a = Start r' k -> q_no (x_reqs s' r) <> q_no (x_reqs s' r')).
    { intros r r' k M EA. destruct (NEW r' k EA) as [NW _]. rewrite NW. cbn. destruct (KEEP r M) as (K1 & K2 & _). rewrite K2.
      destruct (i_no _ I r M). lia. }
    intros r r' M M' EN. destruct (MADE r M) as [M0|[k EA]], (MADE r' M') as [M0'|[k' EA']].
    + apply (i_inj _ I r r' M0 M0'). destruct (KEEP r M0) as (_ & K2 & _), (KEEP r' M0') as (_ & K2' & _). congruence.
    + destruct (X r r' k' M0 EA' EN).
    + destruct (X r' r k M0' EA). congruence.
    + congruence.
  - assert (OS : forall i r, In (i, r) (x_sent s) -> q_id (x_reqs s' r) = i /\ unsent (q_at (x_reqs s' r)) = false).
    { intros i r H. destruct (i_sent _ I i r H) as [H1 H2]. destruct (KEEP r (early_made _ (unsent_early _ H2))) as (K1 & _ & _ & _ & _ & K6).
      split; [congruence|exact (K6 H2)]. }
    intros i r H. rewrite ST in H. apply in_app_iff in H. destruct H as [H|H]; [exact (OS i r H)|].
    destruct a as [t k|t|t|t|t|i0 b| |t|t|t|t|t|t| | |]; try (exfalso; exact H). destruct H as [H|[]]. injection H as <- <-.
    cbn in E. destruct (q_at (x_reqs s t)), (q_kind (x_reqs s t)); try discriminate; injection E as <-; cbn; rewrite set_same; split; reflexivity.
Qed.
Lemma runs_inv allowed s : runs allowed s -> inv s.
Proof. induction 1 as [|s a s' R IH A E]; [exact inv_new|exact (inv_step _ _ _ IH E)]. Qed.

(** Ids differ as long as fewer than 2^32 requests were made. *)
Lemma wrap_s_inj n x y : 0 < n -> wrap_s n x = wrap_s n y -> Z.abs (x - y) < 2 ^ n -> x = y.
Proof.
  unfold wrap_s. intros H E L. assert (0 < 2 ^ n) by (apply Z.pow_pos_nonneg; lia).
  assert (E' : (x + 2 ^ (n - 1)) mod 2 ^ n = (y + 2 ^ (n - 1)) mod 2 ^ n) by lia. clear E.
  pose proof (Z_div_mod_eq_full (x + 2 ^ (n - 1)) (2 ^ n)) as D1. pose proof (Z_div_mod_eq_full (y + 2 ^ (n - 1)) (2 ^ n)) as D2.
  rewrite E' in D1. set (u := (x + 2 ^ (n - 1)) / 2 ^ n) in *. set (v := (y + 2 ^ (n - 1)) / 2 ^ n) in *.
  assert (x - y = 2 ^ n * (u - v)) by lia. assert (u - v = 0) by nia. nia.
Qed.
Lemma ids_differ s r r' : inv s -> few s -> made s r -> made s r' -> q_id (x_reqs s r) = q_id (x_reqs s r') -> r = r'.
Proof.
  intros I F M M' E. apply (i_inj _ I r r' M M'). destruct (i_no _ I r M) as [H1 H2], (i_no _ I r' M') as [H1' H2'].
  unfold few in F. rewrite H2, H2' in E. apply wrap_s_inj in E; lia.
Qed.

(** * Who acts *)

Definition actor (a : maction) : option task :=
  match a with
  | Start t _ | Insert t | Listen t | Send t | SendFail t | Notified t | Finish t | Timeout t | FinishTimeout t | Cancel t | Pop t => Some t
  | Frame _ _ | Unblock | Close | CloseNext | Terminate => None
  end.
Lemma actor_step s a s' t : mstep s a = Some s' -> actor a = Some t ->
  x_disp s' = x_disp s /\ x_frames s' = x_frames s /\ forall r, r <> t -> x_reqs s' r = x_reqs s r.
Proof.
  intros E A. destruct a as [t' k|t'|t'|t'|t'|i b| |t'|t'|t'|t'|t'|t'| | |]; try discriminate; injection A as ->; cbn in E;
    repeat match type of E with context [match ?x with _ => _ end] => destruct x eqn:?; try discriminate end;
    injection E as <-; cbn; (split; [congruence|split; [reflexivity|intros r N; apply set_other; exact N]]).
Qed.
Lemma open_step s a s' : mstep s a = Some s' -> is_open s' -> is_open s.
Proof.
  intros E O. destruct (actor a) as [t|] eqn:A.
  - destruct (actor_step _ _ _ _ E A) as (D & _). unfold is_open in *. rewrite D in O. exact O.
  - unfold is_open in *. destruct a; try discriminate; cbn in E; destruct (x_disp s) as [| |[|t l]|]; try discriminate; try exact I;
    repeat match type of E with context [match ?x with _ => _ end] => destruct x eqn:?; try discriminate end;
    injection E as <-; exact O.
Qed.

Lemma snd_nodup s : inv s -> NoDup (map snd (x_senders s)).
Proof.
  intros I. pose proof (i_nodup _ I) as N. pose proof (i_senders _ I) as S. revert N S. generalize (x_senders s) as l.
  induction l as [|[i r] l IH]; cbn; intros N S; [constructor|]. inversion N as [|? ? NI N']; subst. constructor.
  - intros X. apply in_map_iff in X. destruct X as ([i' r'] & X & Y). cbn in X. subst r'. apply NI.
    destruct (S i r (or_introl eq_refl)) as [A _], (S i' r (or_intror Y)) as [A' _]. replace i with i' by congruence.
    change i' with (fst (i', r)). apply in_map. exact Y.
  - apply IH; [exact N'|]. intros i' r' H. apply S. right. exact H.
Qed.

(** * Closing *)

Definition nones (s : mux) (r : task) : Prop :=
  exists l, q_got (x_reqs s r) ++ q_queue (x_reqs s r) = map Some l
    \/ q_got (x_reqs s r) ++ q_queue (x_reqs s r) = map Some l ++ [None] /\ ~ is_open s
       /\ forall rest, x_disp s = DClosing rest -> ~ In r rest.
Record inv2 (s : mux) : Prop := mkInv2 {
  k_note : forall r, q_note (x_reqs s r) = true -> q_slot (x_reqs s r) <> None \/ ~ is_open s;
  k_woken : forall r, q_at (x_reqs s r) = QWoken -> q_note (x_reqs s r) = true;
  k_serial : forall r, is_queue (x_reqs s r) = true -> match q_at (x_reqs s r) with QListening | QWaiting | QWoken | QTimingOut => False | _ => True end;
  k_stream : forall r, is_queue (x_reqs s r) = false -> q_at (x_reqs s r) <> QStream;
  k_closed : forall r, q_at (x_reqs s r) = QDone Closed -> ~ is_open s;
  k_disp : forall l, x_disp s = DClosing l -> NoDup l;
  k_left : forall l r, x_disp s = DClosing l -> In r l -> early (q_at (x_reqs s r)) = false;
  k_open : forall r, x_disp s <> DGone -> q_closed (x_reqs s r) = true -> exists o, q_at (x_reqs s r) = QDone o;
  k_nones : forall r, nones s r
}.
Lemma inv2_new : inv2 new_mux.
Proof.
  constructor; cbn; intros; try discriminate; try exact I.
  exists []. left. reflexivity.
Qed.
Lemma closing_step s a s' l : mstep s a = Some s' -> x_disp s' = DClosing l ->
  x_disp s = DClosing l \/ (a = Close /\ l = map snd (x_senders s)) \/ (exists r, a = CloseNext /\ x_disp s = DClosing (r :: l)).
Proof.
  intros E D. destruct (actor a) as [t|] eqn:A.
  - destruct (actor_step _ _ _ _ E A) as (X & _). left. congruence.
  - destruct a as [t' k|t'|t'|t'|t'|i b| |t'|t'|t'|t'|t'|t'| | |]; try discriminate; cbn in E.
    + destruct (x_disp s) eqn:X; try discriminate. injection E as <-. unfold send in D. exfalso.
      destruct (find_sender i (x_senders s)) as [t|]; [|cbn in D; congruence].
      destruct (is_queue _); [|cbn in D; congruence]. destruct (q_closed _); [cbn in D; congruence|]. destruct (room _); cbn in D; congruence.
    + destruct (x_disp s) eqn:X; try discriminate. destruct (q_closed _); [|destruct (room _); [|discriminate]]; injection E as <-; discriminate.
    + destruct (x_disp s) eqn:X; try discriminate. injection E as <-. cbn in D. injection D as <-. right. left. split; reflexivity.
    + destruct (x_disp s) as [| |[|t m]|] eqn:X; try discriminate.
      * injection E as <-. discriminate.
      * assert (m = l).
        { destruct (is_queue _); [destruct (q_closed _); [|destruct (room _); [|discriminate]]|]; injection E as <-; cbn in D; congruence. }
        subst m. right. right. exists t. split; reflexivity.
    + destruct (x_disp s) eqn:X; try discriminate. injection E as <-. discriminate.
Qed.
Lemma gone_step s a s' : mstep s a = Some s' -> x_disp s = DGone -> x_disp s' = DGone.
Proof.
  intros E D. destruct (actor a) as [t|] eqn:A.
  - destruct (actor_step _ _ _ _ E A) as (X & _). congruence.
  - destruct a; try discriminate; cbn in E; rewrite D in E; discriminate.
Qed.
Lemma closing_open s l : x_disp s = DClosing l -> ~ is_open s.
Proof. unfold is_open. intros ->. tauto. Qed.

Lemma inv2_step s a s' : inv s -> inv2 s -> mstep s a = Some s' -> inv2 s'.
Proof.
  intros I K E. pose proof (inv_blocked_queue s I) as BQ.
  assert (CH : forall r, change s a r (x_reqs s r) (x_reqs s' r)) by (intros r; exact (step_change s a s' r BQ E)).
  assert (OP : ~ is_open s -> ~ is_open s') by (intros H O; apply H; exact (open_step _ _ _ E O)).
  assert (CN : a = CloseNext \/ a = Terminate -> ~ is_open s').
  { intros [->| ->]; cbn in E.
    - apply OP. unfold is_open. destruct (x_disp s); try discriminate. tauto.
    - destruct (x_disp s); try discriminate. injection E as <-. cbn. tauto. }
  constructor.
  - intros r N. destruct (CH r) as [Q|k EA NN Q|w V Q|o O NN A Q|m QU IN A Q|m QU IN A Q|EA NN QQ Q|EA QU IN Q]; rewrite Q in *; cbn in N |- *.
    + destruct (k_note _ K r N); auto.
    + discriminate.
    + destruct (k_note _ K r N); auto.
    + unfold over in *. destruct (is_queue _); cbn in N |- *; destruct (k_note _ K r N); auto.
    + destruct A as [[-> A]|(i & b & -> & _)]; [right; exact (CN A)|left; discriminate].
    + destruct (k_note _ K r N); auto.
    + destruct (k_note _ K r N); auto.
    + destruct (k_note _ K r N); auto.
  - intros r N. destruct (CH r) as [Q|k EA NN Q|w V Q|o O NN A Q|m QU IN A Q|m QU IN A Q|EA NN QQ Q|EA QU IN Q]; rewrite Q in *; cbn in N |- *;
      try exact (k_woken _ K r N).
    + discriminate.
    + subst w. inversion V. assumption.
    + discriminate.
    + rewrite N. exact (k_woken _ K r N).
  - intros r N. pose proof (k_serial _ K r) as KS.
    destruct (CH r) as [Q|k EA NN Q|w V Q|o O NN A Q|m QU IN A Q|m QU IN A Q|EA NN QQ Q|EA QU IN Q]; rewrite Q in *; cbn in N |- *;
      try (unfold is_queue in N, KS; cbn in N; exact (KS N)).
    + exact Logic.I.
    + unfold is_queue in N; cbn in N. unfold is_queue in KS. specialize (KS N). destruct V; try exact Logic.I;
        match goal with A : q_at _ = _ |- _ => rewrite A in KS end; try exact KS; match goal with A : q_kind _ = Serial |- _ => rewrite A in N end; discriminate.
    + exact Logic.I.
  - intros r N. pose proof (k_stream _ K r) as KS.
    destruct (CH r) as [Q|k EA NN Q|w V Q|o O NN A Q|m QU IN A Q|m QU IN A Q|EA NN QQ Q|EA QU IN Q]; rewrite Q in *; cbn in N |- *;
      try (unfold is_queue in N, KS; cbn in N; exact (KS N)).
    + discriminate.
    + unfold is_queue in N; cbn in N. destruct V; try discriminate. match goal with A : q_kind _ = Queue _ |- _ => rewrite A in N end. discriminate.
    + discriminate.
  - intros r N. destruct (CH r) as [Q|k EA NN Q|w V Q|o O NN A Q|m QU IN A Q|m QU IN A Q|EA NN QQ Q|EA QU IN Q]; rewrite Q in *; cbn in N;
      try exact (OP (k_closed _ K r N)).
    + discriminate.
    + subst w. inversion V as [| | | | | |AT SL AA| |]. apply OP. destruct (k_note _ K r (k_woken _ K r AT)); [contradiction|assumption].
    + injection N as ->. destruct O; discriminate.
  - intros l D. destruct (closing_step _ _ _ _ E D) as [D0|[[_ ->]|(r & _ & D0)]].
    + exact (k_disp _ K l D0).
    + exact (snd_nodup _ I).
    + pose proof (k_disp _ K _ D0) as N. inversion N; assumption.
  - intros l r D IN. assert (X : early (q_at (x_reqs s r)) = false).
    { destruct (closing_step _ _ _ _ E D) as [D0|[[_ ->]|(r' & _ & D0)]].
      - exact (k_left _ K l r D0 IN).
      - apply in_map_iff in IN. destruct IN as ([i r'] & <- & IN). apply (i_senders _ I i r' IN).
      - exact (k_left _ K _ r D0 (or_intror IN)). }
    apply (change_made _ _ _ _ _ (CH r) (early_made _ X)). exact X.
  - intros r D C. assert (D0 : x_disp s <> DGone) by (intros X; apply D; exact (gone_step _ _ _ E X)).
    destruct (CH r) as [Q|k EA NN Q|w V Q|o O NN A Q|m QU IN A Q|m QU IN A Q|EA NN QQ Q|EA QU IN Q]; rewrite Q in *; cbn in C |- *;
      try exact (k_open _ K r D0 C).
    + discriminate.
    + destruct (k_open _ K r D0 C) as [o X]. destruct V; congruence.
    + exists o. unfold over. destruct (is_queue _); reflexivity.
    + subst a. exfalso. apply D. cbn in E. destruct (x_disp s); try discriminate. injection E as <-. reflexivity.
  - assert (REST : forall r, ~ is_open s -> (forall rest, x_disp s = DClosing rest -> ~ In r rest) -> forall rest, x_disp s' = DClosing rest -> ~ In r rest).
    { intros r NO H rest D. destruct (closing_step _ _ _ _ E D) as [D0|[[EA _]|(r' & _ & D0)]].
      - exact (H rest D0).
      - subst a. cbn in E. unfold is_open in NO. destruct (x_disp s); try discriminate. tauto.
      - intros X. apply (H _ D0). right. exact X. }
    assert (SAME : forall r, q_got (x_reqs s' r) ++ q_queue (x_reqs s' r) = q_got (x_reqs s r) ++ q_queue (x_reqs s r) -> nones s' r).
    { intros r X. destruct (k_nones _ K r) as [l [H|(H & NO & R)]]; exists l; [left; congruence|right].
      split; [congruence|]. split; [exact (OP NO)|exact (REST r NO R)]. }
    intros r. destruct (CH r) as [Q|k EA NN Q|w V Q|o O NN A Q|m QU IN A Q|m QU IN A Q|EA NN QQ Q|EA QU IN Q];
      try (apply SAME; rewrite Q; reflexivity).
    + exists []. left. rewrite Q. reflexivity.
    + apply SAME. rewrite Q. unfold over. destruct (is_queue _); reflexivity.
    + destruct (k_nones _ K r) as [l [H|(H & NO & R)]].
      * destruct A as [(-> & EA & l' & D)|A].
        -- exists l. right. rewrite Q. cbn. rewrite app_assoc, H. split; [reflexivity|]. split; [exact (CN (or_introl EA))|].
           intros rest D'. pose proof (k_disp _ K _ D) as ND. destruct (closing_step _ _ _ _ E D') as [D0|[[EA' _]|(r' & _ & D0)]].
           ++ exfalso. subst a. cbn in E. rewrite D in E. rewrite QU, IN in E. destruct (room _); [|discriminate]. injection E as <-. cbn in D'.
              rewrite D in D0. injection D' as <-. injection D0 as X. clear - X. apply (f_equal (@length _)) in X. cbn in X. lia.
           ++ congruence.
           ++ rewrite D in D0. injection D0 as <- <-. inversion ND; assumption.
        -- assert (X : exists b, m = Some b) by (destruct A as [(i & b & -> & _)|(b & -> & _)]; exists b; reflexivity).
           destruct X as [b ->]. exists (l ++ [b]). left. rewrite Q. cbn. rewrite app_assoc, H, map_app. reflexivity.
      * exfalso. destruct A as [(-> & EA & l' & D)|[(i & b & -> & -> & IS)|(b & -> & -> & D)]].
        -- apply (R _ D). left. reflexivity.
        -- cbn in E. unfold is_open in NO. destruct (x_disp s); try discriminate. tauto.
        -- unfold is_open in NO. rewrite D in NO. tauto.
    + apply SAME. rewrite Q. cbn. destruct (q_queue (x_reqs s r)); [contradiction|]. rewrite <- app_assoc. reflexivity.
Qed.
Lemma runs_inv2 allowed s : runs allowed s -> inv2 s.
Proof. induction 1 as [|s a s' R IH A E]; [exact inv2_new|exact (inv2_step _ _ _ (runs_inv _ _ R) IH E)]. Qed.

(** * Frames that answer requests *)

Definition on_stream (w : where_q (B := B)) : Prop := match w with QInserted | QStream => True | _ => False end.
Definition on_serial (w : where_q (B := B)) : Prop :=
  match w with QInserted | QListening | QWaiting | QWoken | QTimingOut => True | _ => False end.
Definition before_woken (w : where_q (B := B)) : Prop := match w with QInserted | QListening | QWaiting => True | _ => False end.
Definition some_came (l : list B) : bool := match l with [] => false | _ => true end.

Definition stream_ok s r : Prop :=
  is_queue (x_reqs s r) = true -> on_stream (q_at (x_reqs s r)) ->
  came s (q_id (x_reqs s r)) = somes (q_got (x_reqs s r) ++ q_queue (x_reqs s r)) ++ held_back s r
  /\ (is_open s -> q_closed (x_reqs s r) = false /\ In (q_id (x_reqs s r), r) (x_senders s)).
Definition serial_ok s r : Prop :=
  is_queue (x_reqs s r) = false -> on_serial (q_at (x_reqs s r)) -> is_open s ->
  In (q_id (x_reqs s r), r) (x_senders s)
  /\ q_slot (x_reqs s r) = last_of (came s (q_id (x_reqs s r)))
  /\ (before_woken (q_at (x_reqs s r)) -> q_note (x_reqs s r) = some_came (came s (q_id (x_reqs s r)))).
Record inv3 (s : mux) : Prop := mkInv3 {
  j_frames : forall i b, In (i, b) (x_frames s) -> exists r, In (i, r) (x_sent s);
  j_fresh : forall r, q_at (x_reqs s r) = QHasId ->
    q_slot (x_reqs s r) = None /\ q_note (x_reqs s r) = false /\ q_queue (x_reqs s r) = [] /\ q_closed (x_reqs s r) = false /\ q_got (x_reqs s r) = [];
  j_stream : forall r, stream_ok s r;
  j_serial : forall r, serial_ok s r
}.
Lemma inv3_new : inv3 new_mux.
Proof.
  constructor; cbn; try (intros; contradiction); try (intros; discriminate).
  intros r _ [].
Qed.

Lemma came_none s i : (forall b, ~ In (i, b) (x_frames s)) -> came s i = [].
Proof.
  unfold came. generalize (x_frames s) as l. induction l as [|[j b] l IH]; cbn; intros H; [reflexivity|].
  destruct (j =? i) eqn:E; [apply Z.eqb_eq in E; subst j; destruct (H b); left; reflexivity|]. apply IH. intros b' X. apply (H b'). right. exact X.
Qed.
Lemma came_unsent s r : inv s -> inv3 s -> few s -> made s r -> unsent (q_at (x_reqs s r)) = true -> came s (q_id (x_reqs s r)) = [].
Proof.
  intros I J F M U. apply came_none. intros b X. destruct (j_frames _ J _ _ X) as [r' S]. destruct (i_sent _ I _ _ S) as [H1 H2].
  assert (r' = r) by (apply (ids_differ s); [exact I|exact F|exact (early_made _ (unsent_early _ H2))|exact M|exact H1]). subst r'. congruence.
Qed.
Lemma came_step s a s' i : mstep s a = Some s' ->
  came s' i = came s i ++ match a with Frame j b => if j =? i then [b] else [] | _ => [] end.
Proof.
  intros E. unfold came. rewrite (frames_step _ _ _ E), filter_app, map_app. f_equal. destruct a; try reflexivity.
  cbn. destruct (_ =? _); reflexivity.
Qed.
Lemma somes_app {A} (l l' : list (option A)) : somes (l ++ l') = somes l ++ somes l'.
Proof. induction l as [|[a|] l IH]; cbn; [reflexivity|rewrite IH; reflexivity|exact IH]. Qed.
Lemma last_of_app {A} (l : list A) a : last_of (l ++ [a]) = Some a.
Proof. unfold last_of. rewrite rev_app_distr. reflexivity. Qed.
Lemma some_came_app l b : some_came (l ++ [b]) = true.
Proof. destruct l; reflexivity. Qed.

(** The senders of others stay. *)
Lemma senders_keep s a s' r : inv s -> few s -> mstep s a = Some s' -> actor a <> Some r -> In (q_id (x_reqs s r), r) (x_senders s) ->
  (is_queue (x_reqs s r) = true -> q_closed (x_reqs s r) = false) -> In (q_id (x_reqs s r), r) (x_senders s').
Proof.
  intros I F E A S C. pose proof (senders_step _ _ _ E) as SE.
  assert (M : made s r) by exact (early_made _ (proj2 (i_senders _ I _ _ S))).
  assert (DIFF : forall t, t <> r -> made s t -> q_id (x_reqs s r) <> q_id (x_reqs s t)).
  { intros t N Mt X. apply N. symmetry. apply (ids_differ s); assumption. }
  destruct a as [t k|t|t|t|t|i b| |t|t|t|t|t|t| | |]; try (rewrite SE; exact S); cbn in A; destruct SE as (AT & U & SE); rewrite SE.
  - apply in_app_iff. left. apply In_remove. split.
    + destruct (is_queue (x_reqs s t)); [|exact S]. apply filter_In. split; [exact S|]. cbn. apply negb_true_iff, andb_false_iff.
      destruct (is_queue (x_reqs s r)); [right; apply C; reflexivity|left; reflexivity].
    + cbn. apply DIFF; [congruence|]. unfold made. rewrite AT. discriminate.
  - apply In_remove. split; [exact S|]. cbn. apply DIFF; [congruence|]. unfold made. rewrite AT. discriminate.
  - apply In_remove. split; [exact S|]. cbn. apply DIFF; [congruence|]. unfold made. rewrite AT. discriminate.
Qed.

Lemma held_back_same s s' r : x_disp s' = x_disp s -> held_back s' r = held_back s r.
Proof. unfold held_back. intros ->. reflexivity. Qed.
Lemma open_same s s' : x_disp s' = x_disp s -> is_open s' -> is_open s.
Proof. unfold is_open. intros ->. tauto. Qed.
Lemma unlocked_held s r : unlocked s = true -> held_back s r = [].
Proof. unfold unlocked, held_back. destruct (x_disp s); congruence. Qed.

(** A step of another task. *)
Lemma other_ok s a s' t r : inv s -> few s -> mstep s a = Some s' -> actor a = Some t -> r <> t ->
  (stream_ok s r -> stream_ok s' r) /\ (serial_ok s r -> serial_ok s' r).
Proof.
  intros I F E A N. destruct (actor_step _ _ _ _ E A) as (D & FR & SAME). specialize (SAME r N).
  assert (CM : came s' (q_id (x_reqs s r)) = came s (q_id (x_reqs s r))) by (unfold came; rewrite FR; reflexivity).
  unfold stream_ok, serial_ok. rewrite SAME, CM, (held_back_same _ _ r D). split.
  - intros H Q W. destruct (H Q W) as [H1 H2]. split; [exact H1|]. intros O. destruct (H2 (open_same _ _ D O)) as [C S].
    split; [exact C|]. apply (senders_keep s a); try assumption; [rewrite A; congruence|intros _; exact C].
  - intros H Q W O. destruct (H Q W (open_same _ _ D O)) as (S & H2). split; [|exact H2].
    apply (senders_keep s a); try assumption; [rewrite A; congruence|congruence].
Qed.

(** A step of the task itself. *)
Lemma own_ok s a s' r : inv s -> inv2 s -> inv3 s -> few s -> mstep s a = Some s' -> actor a = Some r ->
  stream_ok s' r /\ serial_ok s' r.
Proof.
  intros I K J F E A. destruct (actor_step _ _ _ _ E A) as (D & FR & _).
  pose proof (step_change s a s' r (inv_blocked_queue s I) E) as CH.
  pose proof (senders_step _ _ _ E) as SE. pose proof (j_stream _ J r) as JS. pose proof (j_serial _ J r) as JQ.
  assert (CM : forall i, came s' i = came s i) by (intros i; unfold came; rewrite FR; reflexivity).
  pose proof (open_same _ _ D) as OP.
  unfold stream_ok, serial_ok in *. rewrite (held_back_same _ _ r D).
  destruct CH as [Q|k EA NN Q|w V Q|o O NN B' Q|m QU IN B' Q|m QU IN B' Q|EA NN QQ Q|EA QU IN Q]; rewrite Q, CM; cbn.
  - (* same *)
    assert (SS : on_stream (q_at (x_reqs s r)) \/ on_serial (q_at (x_reqs s r)) -> x_senders s' = x_senders s).
    { destruct a as [t k|t|t|t|t|i b| |t|t|t|t|t|t| | |]; try (intros _; exact SE); cbn in A; injection A as ->; destruct SE as (AT & U & SE);
        exfalso; cbn in E; rewrite AT, U in E; injection E as <-; cbn in Q; rewrite set_same in Q;
        apply (f_equal q_at) in Q; cbn in Q; rewrite AT in Q; discriminate. }
    split.
    + intros H W. destruct (JS H W) as [H1 H2]. split; [exact H1|]. intros O. rewrite (SS (or_introl W)). exact (H2 (OP O)).
    + intros H W O. rewrite (SS (or_intror W)). exact (JQ H W (OP O)).
  - split; intros _ [].
  - destruct V as [AT|AT KD|AT KD|c AT KD|AT NT|b AT SL|AT SL|AT|AT].
    + (* Insert *)
      destruct (j_fresh _ J r AT) as (F1 & F2 & F3 & F4 & F5). destruct SE as (_ & U & SE).
      assert (CE : came s (q_id (x_reqs s r)) = []).
      { apply came_unsent; try assumption; [unfold made; rewrite AT; discriminate|rewrite AT; reflexivity]. }
      assert (INS : In (q_id (x_reqs s r), r) (x_senders s')) by (rewrite SE; apply in_app_iff; right; left; reflexivity).
      unfold is_queue; cbn. rewrite F1, F2, F3, F4, F5, CE, (unlocked_held _ _ U). split.
      * intros _ _. split; [reflexivity|]. intros _. split; [reflexivity|exact INS].
      * intros _ _ _. split; [exact INS|]. split; [reflexivity|]. intros _. reflexivity.
    + unfold is_queue in *; cbn. rewrite SE, KD in *. split; [discriminate|]. intros _ _ O. rewrite AT in JQ. exact (JQ eq_refl Logic.I (OP O)).
    + unfold is_queue in *; cbn. rewrite SE, KD in *. split; [discriminate|]. intros _ _ O. rewrite AT in JQ. exact (JQ eq_refl Logic.I (OP O)).
    + unfold is_queue in *; cbn. rewrite SE, KD in *. split; [|discriminate]. intros _ _. rewrite AT in JS. destruct (JS eq_refl Logic.I) as [H1 H2].
      split; [exact H1|]. intros O. exact (H2 (OP O)).
    + split; [intros _ []|]. rewrite SE. intros H _ O. rewrite AT in JQ. destruct (JQ H Logic.I (OP O)) as (H1 & H2 & _). split; [exact H1|]. split; [exact H2|]. intros [].
    + split; intros _ [].
    + split; intros _ [].
    + split; [intros _ []|]. rewrite SE. intros H _ O. rewrite AT in JQ. destruct (JQ H Logic.I (OP O)) as (H1 & H2 & _). split; [exact H1|]. split; [exact H2|]. intros [].
    + split; intros _ [].
  - unfold over. destruct (is_queue (x_reqs s r)); cbn; split; intros _ [].
  - exfalso. destruct B' as [[_ [->| ->]]|(i & b & _ & -> & _)]; discriminate.
  - exfalso. destruct B' as [(_ & -> & _)|[(i & b & _ & -> & _)|(b & _ & -> & _)]]; discriminate.
  - rewrite NN. subst a. rewrite SE. split; [|intros _ []]. unfold is_queue; cbn. intros H _. unfold is_queue in JS. rewrite NN in JS.
    destruct (JS H Logic.I) as [H1 H2]. split; [|intros O; exact (H2 (OP O))]. rewrite H1. f_equal. f_equal.
    destruct (q_queue (x_reqs s r)); [contradiction|]. rewrite <- app_assoc. reflexivity.
  - subst a. discriminate.
Qed.

Lemma not_open_serial s r : ~ is_open s -> serial_ok s r.
Proof. intros N _ _ O. contradiction. Qed.

(** A step of the dispatcher. *)
Lemma frame_other s i b r : x_disp s = DIdle -> find_sender i (x_senders s) <> Some r ->
  x_reqs (send s i b) r = x_reqs s r /\ held_back (send s i b) r = [] /\ x_senders (send s i b) = x_senders s.
Proof.
  intros D N. unfold send. destruct (find_sender i (x_senders s)) as [t|]; [|unfold held_back; cbn; rewrite D; auto].
  assert (r <> t) by congruence.
  destruct (is_queue _); [destruct (q_closed _); [|destruct (room _)]|]; unfold held_back; cbn; rewrite ?D, ?set_other by assumption; auto.
  destruct (Nat.eqb_spec t r); [congruence|]. auto.
Qed.
Lemma frame_ok s i b r : inv s -> inv3 s -> few s -> answers s (Frame i b) -> x_disp s = DIdle ->
  stream_ok (send s i b) r /\ serial_ok (send s i b) r.
Proof.
  intros I J F AN D. pose proof (j_stream _ J r) as JS. pose proof (j_serial _ J r) as JQ.
  assert (E : mstep s (Frame i b) = Some (send s i b)) by (cbn; rewrite D; reflexivity).
  pose proof (fun j => came_step _ _ _ j E) as CM. cbn in CM.
  assert (O : is_open s) by (unfold is_open; rewrite D; exact Logic.I).
  assert (HB : held_back s r = []) by (unfold held_back; rewrite D; reflexivity).
  assert (DEC : find_sender i (x_senders s) = Some r \/ find_sender i (x_senders s) <> Some r).
  { destruct (find_sender i (x_senders s)) as [t|]; [|right; discriminate]. destruct (Nat.eq_dec t r); [left; congruence|right; congruence]. }
  destruct DEC as [FS|FS].
  - assert (IS := find_sender_In _ _ _ FS). destruct AN as [r' S]. destruct (i_sent _ I _ _ S) as [S1 S2].
    destruct (i_senders _ I _ _ IS) as [EI EE].
    assert (r' = r) by (apply (ids_differ s); [exact I|exact F|exact (early_made _ (unsent_early _ S2))|exact (early_made _ EE)|congruence]). subst r'.
    unfold send in *. rewrite FS in *. destruct (is_queue (x_reqs s r)) eqn:Q.
    + destruct (q_closed (x_reqs s r)) eqn:C; [|destruct (room (x_reqs s r)) eqn:R].
      * assert (NS : ~ on_stream (q_at (x_reqs s r))) by (intros W; destruct (JS Q W) as [_ X]; destruct (X O) as [X1 _]; congruence).
        split; [|intros X; cbn in X; congruence]. intros _ W. contradiction.
      * split; [|intros X; cbn in X; rewrite set_same in X; unfold is_queue in X, Q; cbn in X; congruence].
        unfold stream_ok. cbn in CM |- *. rewrite set_same. cbn. intros _ W. destruct (JS Q W) as [X1 X2]. rewrite CM, X1, EI, Z.eqb_refl, HB.
        split; [|intros _; destruct (X2 O) as [X3 X4]; split; [exact C|congruence]].
        unfold held_back; cbn. rewrite D. rewrite !app_assoc, (somes_app _ [Some b]), !app_nil_r. reflexivity.
      * split; [|intros X; cbn in X; congruence].
        unfold stream_ok. cbn in CM |- *. intros _ W. destruct (JS Q W) as [X1 X2]. rewrite CM, X1, EI, Z.eqb_refl, HB, app_nil_r.
        split; [|intros _; destruct (X2 O) as [X3 X4]; split; [exact C|congruence]].
        unfold held_back; cbn. rewrite Nat.eqb_refl. reflexivity.
    + split; [intros X; cbn in X; rewrite set_same in X; unfold is_queue in X, Q; cbn in X; congruence|].
      unfold serial_ok. cbn in CM |- *. rewrite set_same. cbn. intros _ W _. destruct (JQ Q W O) as (X1 & X2 & X3).
      split; [exact X1|]. rewrite CM, EI, Z.eqb_refl, last_of_app, some_came_app. split; [reflexivity|].
      intros BW. destruct (q_at (x_reqs s r)) eqn:AT; try (exfalso; exact BW); try discriminate; reflexivity.
  - destruct (frame_other s i b r D FS) as (SAME & HB' & SE).
    assert (NI : In (q_id (x_reqs s r), r) (x_senders s) -> (i =? q_id (x_reqs s r)) = false).
    { intros X. apply Z.eqb_neq. intros ->. apply FS. apply find_sender_spec; [exact (i_nodup _ I)|exact X]. }
    unfold stream_ok, serial_ok in *. rewrite SAME, HB', SE, CM. split.
    + intros Q W. destruct (JS Q W) as [X1 X2]. destruct (X2 O) as [X3 X4]. rewrite (NI X4), X1, HB, !app_nil_r.
      split; [reflexivity|]. intros _. split; assumption.
    + intros Q W _. destruct (JQ Q W O) as (X1 & X2). rewrite (NI X1), app_nil_r. split; [exact X1|exact X2].
Qed.
Lemma disp_ok s a s' r : inv s -> inv3 s -> few s -> answers s a -> mstep s a = Some s' -> actor a = None ->
  stream_ok s' r /\ serial_ok s' r.
Proof.
  intros I J F AN E A. pose proof (j_stream _ J r) as JS. pose proof (j_serial _ J r) as JQ.
  pose proof (fun i => came_step _ _ _ i E) as CM.
  destruct a as [t k|t|t|t|t|i b| |t|t|t|t|t|t| | |]; try discriminate.
  - cbn in E. destruct (x_disp s) eqn:D; try discriminate. injection E as <-. exact (frame_ok s i b r I J F AN D).
  - cbn in E, CM. destruct (x_disp s) as [|t b| |] eqn:D; try discriminate. assert (O : is_open s) by (unfold is_open; rewrite D; exact Logic.I).
    assert (Q := inv_blocked_queue s I t b D).
    destruct (Nat.eq_dec r t) as [->|N].
    + assert (HB : held_back s t = [b]) by (unfold held_back; rewrite D, Nat.eqb_refl; reflexivity).
      destruct (q_closed (x_reqs s t)) eqn:C; [|destruct (room (x_reqs s t)); [|discriminate]]; injection E as <-.
      * split; [|intros X; cbn in X; congruence]. intros _ W. cbn in W. destruct (JS Q W) as [_ X]. destruct (X O). congruence.
      * split; [|intros X; cbn in X; rewrite set_same in X; unfold is_queue in X, Q; cbn in X; congruence].
        unfold stream_ok. cbn in CM |- *. rewrite set_same. cbn. intros _ W. destruct (JS Q W) as [X1 X2]. rewrite CM, X1, HB, app_nil_r.
        split; [|intros _; destruct (X2 O) as [X3 X4]; split; [exact C|exact X4]].
        unfold held_back; cbn. rewrite app_assoc, (somes_app _ [Some b]), app_nil_r. reflexivity.
    + assert (HB : held_back s r = []) by (unfold held_back; rewrite D; destruct (Nat.eqb_spec t r); congruence).
      assert (X : x_reqs s' r = x_reqs s r /\ x_senders s' = x_senders s /\ held_back s' r = []).
      { destruct (q_closed (x_reqs s t)); [|destruct (room (x_reqs s t)); [|discriminate]]; injection E as <-; cbn; rewrite ?set_other by exact N; auto. }
      destruct X as (X1 & X2 & X3). unfold stream_ok, serial_ok in *. rewrite X1, X2, X3, CM, app_nil_r. rewrite HB in JS. split.
      * intros W1 W2. destruct (JS W1 W2) as [Y1 Y2]. split; [exact Y1|]. intros _. exact (Y2 O).
      * intros W1 W2 _. exact (JQ W1 W2 O).
  - assert (NO : ~ is_open s') by (cbn in E; destruct (x_disp s); try discriminate; injection E as <-; cbn; tauto).
    split; [|exact (not_open_serial _ _ NO)]. cbn in E, CM. destruct (x_disp s) eqn:D; try discriminate. injection E as <-.
    unfold stream_ok in *. cbn in *. intros W1 W2. destruct (JS W1 W2) as [Y1 _]. split; [|intros O; contradiction].
    rewrite CM, Y1. unfold held_back; cbn. rewrite D, !app_nil_r. reflexivity.
  - assert (NO : ~ is_open s').
    { intros O. apply (open_step _ _ _ E) in O. cbn in E. unfold is_open in O. destruct (x_disp s); try discriminate. exact O. }
    split; [|exact (not_open_serial _ _ NO)]. cbn in E, CM. destruct (x_disp s) as [| |[|t l]|] eqn:D; try discriminate.
    + injection E as <-. unfold stream_ok in *. cbn in *. intros W1 W2. destruct (JS W1 W2) as [Y1 _]. split; [|intros O; contradiction].
      rewrite CM, Y1. unfold held_back; cbn. rewrite D, !app_nil_r. reflexivity.
    + assert (X : q_id (x_reqs s' r) = q_id (x_reqs s r) /\ q_at (x_reqs s' r) = q_at (x_reqs s r) /\ is_queue (x_reqs s' r) = is_queue (x_reqs s r)
        /\ somes (q_got (x_reqs s' r) ++ q_queue (x_reqs s' r)) = somes (q_got (x_reqs s r) ++ q_queue (x_reqs s r)) /\ held_back s' r = []).
      { destruct (is_queue (x_reqs s t)); [destruct (q_closed (x_reqs s t)); [|destruct (room (x_reqs s t)); [|discriminate]]|]; injection E as <-;
          cbn; try (repeat split; reflexivity); (destruct (Nat.eq_dec r t) as [->|N]; [rewrite set_same|rewrite set_other by exact N; repeat split; reflexivity]);
          unfold is_queue; cbn; repeat split. rewrite app_assoc, (somes_app _ [None]), app_nil_r. reflexivity. }
      destruct X as (X1 & X2 & X3 & X4 & X5). unfold stream_ok in *. rewrite X1, X2, X3, X4, X5, CM, app_nil_r. intros W1 W2. destruct (JS W1 W2) as [Y1 _].
      split; [|intros O; contradiction]. rewrite Y1. unfold held_back. rewrite D, app_nil_r. reflexivity.
  - assert (NO : ~ is_open s') by (cbn in E; destruct (x_disp s); try discriminate; injection E as <-; cbn; tauto).
    split; [|exact (not_open_serial _ _ NO)]. cbn in E, CM. destruct (x_disp s) eqn:D; try discriminate. injection E as <-.
    unfold stream_ok in *. cbn in *. intros W1 W2.
    assert (Y : came s (q_id (x_reqs s r)) = somes (q_got (x_reqs s r) ++ q_queue (x_reqs s r)) ++ held_back s r).
    { apply JS; revert W1 W2; destruct (existsb _ _), (is_queue (x_reqs s r)) eqn:Q; unfold is_queue in *; cbn; congruence. }
    split; [|intros O; contradiction]. unfold held_back in Y |- *. cbn. rewrite D in Y. rewrite CM.
    destruct (existsb _ _), (is_queue (x_reqs s r)); cbn; rewrite app_nil_r; exact Y.
Qed.

Lemma inv3_step s a s' : inv s -> inv2 s -> inv3 s -> few s -> answers s a -> mstep s a = Some s' -> inv3 s'.
Proof.
  intros I K J F AN E. pose proof (step_change s a s' ) as CH.
  assert (OK : forall r, stream_ok s' r /\ serial_ok s' r).
  { intros r. destruct (actor a) as [t|] eqn:A; [|exact (disp_ok s a s' r I J F AN E A)].
    destruct (Nat.eq_dec r t) as [->|N]; [exact (own_ok s a s' t I K J F E A)|].
    destruct (other_ok s a s' t r I F E A N) as [H1 H2]. split; [exact (H1 (j_stream _ J r))|exact (H2 (j_serial _ J r))]. }
  constructor.
  - intros i b H. rewrite (frames_step _ _ _ E) in H. apply in_app_iff in H.
    assert (X : exists r, In (i, r) (x_sent s)).
    { destruct H as [H|H]; [exact (j_frames _ J i b H)|]. destruct a; try (exfalso; exact H). destruct H as [H|[]]. injection H as -> ->. exact AN. }
    destruct X as [r X]. exists r. rewrite (sent_step _ _ _ E). apply in_app_iff. left. exact X.
  - intros r AT. specialize (CH r (inv_blocked_queue s I) E).
    destruct CH as [Q|k EA NN Q|w V Q|o O NN B' Q|m QU IN B' Q|m QU IN B' Q|EA NN QQ Q|EA QU IN Q]; rewrite Q in *; cbn in *.
    + exact (j_fresh _ J r AT).
    + repeat split; reflexivity.
    + subst w. inversion V.
    + discriminate.
    + exfalso. destruct IN as [[i IN]|(l & D & IN)].
      * destruct (i_senders _ I _ _ IN) as [_ X]. rewrite AT in X. discriminate.
      * pose proof (k_left _ K _ _ D IN) as X. rewrite AT in X. discriminate.
    + exfalso. destruct B' as [(_ & _ & l & D)|[(i & b & _ & _ & IS)|(b & _ & _ & D)]].
      * pose proof (k_left _ K _ _ D (or_introl eq_refl)) as X. rewrite AT in X. discriminate.
      * destruct (i_senders _ I _ _ IS) as [_ X]. rewrite AT in X. discriminate.
      * destruct (i_blocked _ I _ _ D) as (_ & X & _). rewrite AT in X. discriminate.
    + congruence.
    + exfalso. destruct IN as [i IN]. destruct (i_senders _ I _ _ IN) as [_ X]. rewrite AT in X. discriminate.
  - intros r. apply OK.
  - intros r. apply OK.
Qed.

Lemma few_step s a s' : mstep s a = Some s' -> few s' -> few s.
Proof. intros E. pose proof (count_step _ _ _ E) as C. unfold few. destruct a; lia. Qed.
Lemma runs_inv3 s : runs answers s -> few s -> inv3 s.
Proof.
  induction 1 as [|s a s' R IH A E]; intros F; [exact inv3_new|]. assert (F0 := few_step _ _ _ E F).
  exact (inv3_step s a s' (runs_inv _ _ R) (runs_inv2 _ _ R) (IH F0) F0 A E).
Qed.

(** * Claims about responses *)

Lemma somes_In {A} (l : list (option A)) a : In a (somes l) <-> In (Some a) l.
Proof.
  induction l as [|[x|] l IH]; cbn; [reflexivity| |].
  - rewrite IH. split; intros [H|H]; auto; left; congruence.
  - rewrite IH. split; [auto|]. intros [H|H]; [discriminate|exact H].
Qed.
Lemma responses_right s r b : runs anything s -> In b (given s r) -> In (q_id (x_reqs s r), b) (x_frames s).
Proof.
  intros R H. apply (i_holds _ (runs_inv _ _ R) r b). unfold given in H. apply in_app_iff in H. destruct H as [H|H].
  - right; right; right. destruct (q_at (x_reqs s r)) as [| | | | | | | |[b'| | | |]]; try (exfalso; exact H). destruct H as [H|[]]. congruence.
  - right; right; left. apply somes_In. exact H.
Qed.
Lemma ids_unique s r r' : runs anything s -> few s -> made s r -> made s r' -> r <> r' -> q_id (x_reqs s r) <> q_id (x_reqs s r').
Proof. intros R F M M' N E. apply N. exact (ids_differ s r r' (runs_inv _ _ R) F M M' E). Qed.
Lemma frame_only s i b s' r : runs anything s -> mstep s (Frame i b) = Some s' -> q_id (x_reqs s r) <> i -> x_reqs s' r = x_reqs s r.
Proof.
  intros R E N. pose proof (runs_inv _ _ R) as I. cbn in E. destruct (x_disp s) eqn:D; try discriminate. injection E as <-.
  apply (frame_other s i b r D). intros X. apply find_sender_In in X. apply N. apply (i_senders _ I i r X).
Qed.
Lemma stream_exact s r : runs answers s -> few s -> q_at (x_reqs s r) = QStream ->
  came s (q_id (x_reqs s r)) = somes (q_got (x_reqs s r)) ++ somes (q_queue (x_reqs s r)) ++ held_back s r.
Proof.
  intros R F AT. assert (Q : is_queue (x_reqs s r) = true).
  { destruct (is_queue (x_reqs s r)) eqn:Q; [reflexivity|]. destruct (k_stream _ (runs_inv2 _ _ R) r Q AT). }
  destruct (j_stream _ (runs_inv3 _ R F) r Q) as [X _]; [rewrite AT; exact Logic.I|]. rewrite X, somes_app, app_assoc. reflexivity.
Qed.
Lemma stream_ends s r : runs anything s ->
  exists l, q_got (x_reqs s r) ++ q_queue (x_reqs s r) = map Some l
    \/ q_got (x_reqs s r) ++ q_queue (x_reqs s r) = map Some l ++ [None] /\ ~ is_open s.
Proof. intros R. destruct (k_nones _ (runs_inv2 _ _ R) r) as [l [H|(H & O & _)]]; exists l; [left; exact H|right; split; assumption]. Qed.
Lemma waiting_serial s r : runs answers s -> q_at (x_reqs s r) = QWaiting -> is_queue (x_reqs s r) = false.
Proof.
  intros R AT. destruct (is_queue (x_reqs s r)) eqn:Q; [|reflexivity]. pose proof (k_serial _ (runs_inv2 _ _ R) r Q) as X. rewrite AT in X. destruct X.
Qed.
Lemma not_before s r : runs answers s -> few s -> is_open s -> q_at (x_reqs s r) = QWaiting -> came s (q_id (x_reqs s r)) = [] ->
  mstep s (Notified r) = None.
Proof.
  intros R F O AT C. destruct (j_serial _ (runs_inv3 _ R F) r (waiting_serial _ _ R AT)) as (_ & _ & X); [rewrite AT; exact Logic.I|exact O|].
  cbn. rewrite AT in *. rewrite (X Logic.I), C. reflexivity.
Qed.
Lemma answered s r l b : runs answers s -> few s -> x_disp s = DIdle -> q_at (x_reqs s r) = QWaiting ->
  came s (q_id (x_reqs s r)) = l ++ [b] ->
  exists s', mexec s [Notified r; Finish r] = Some s' /\ q_at (x_reqs s' r) = QDone (Response b).
Proof.
  intros R F D AT C. assert (O : is_open s) by (unfold is_open; rewrite D; exact Logic.I).
  destruct (j_serial _ (runs_inv3 _ R F) r (waiting_serial _ _ R AT)) as (_ & S & X); [rewrite AT; exact Logic.I|exact O|].
  rewrite AT in X. specialize (X Logic.I). rewrite C, some_came_app in X. rewrite C, last_of_app in S.
  cbn. rewrite AT, X. cbn. rewrite set_same. unfold unlocked. cbn. rewrite D. eexists. split; [reflexivity|]. cbn. rewrite !set_same. cbn. rewrite S. reflexivity.
Qed.
Lemma closed_closed s r : runs anything s -> q_at (x_reqs s r) = QDone Closed -> ~ is_open s.
Proof. intros R H. exact (k_closed _ (runs_inv2 _ _ R) r H). Qed.

(** * When the connection ends *)

Definition told s r : Prop :=
  early (q_at (x_reqs s r)) = false /\
  if is_queue (x_reqs s r) then (exists l, q_got (x_reqs s r) ++ q_queue (x_reqs s r) = map Some l ++ [None]) \/ exists o, q_at (x_reqs s r) = QDone o
  else q_note (x_reqs s r) = true \/ q_at (x_reqs s r) = QTimingOut \/ exists o, q_at (x_reqs s r) = QDone o.
Definition ready s r : Prop :=
  early (q_at (x_reqs s r)) = false /\ (is_queue (x_reqs s r) = false -> q_at (x_reqs s r) <> QInserted).

Lemma map_some_none (l l' : list B) m m' : map Some l ++ [m] = map Some l' ++ [m'] -> l = l' /\ m = m'.
Proof.
  intros H. apply app_inj_tail in H. destruct H as [H ->]. split; [|reflexivity]. revert l' H.
  induction l as [|b l IH]; intros [|b' l']; cbn; intros H; try discriminate; [reflexivity|]. injection H as -> H. f_equal. exact (IH _ H).
Qed.
Lemma none_In (l : list B) : ~ In None (map Some l).
Proof. intros H. apply in_map_iff in H. destruct H as (x & X & _). discriminate. Qed.
Lemma told_step s a s' r : inv s -> inv2 s -> mstep s a = Some s' -> told s r -> told s' r.
Proof.
  intros I K E [EE T]. pose proof (inv2_step _ _ _ I K E) as K'. pose proof (step_change s a s' r (inv_blocked_queue s I) E) as CH.
  destruct (change_made _ _ _ _ _ CH (early_made _ EE)) as (_ & _ & KD & _ & EK & _). split; [exact (EK EE)|].
  assert (IQ : is_queue (x_reqs s' r) = is_queue (x_reqs s r)) by (unfold is_queue; rewrite KD; reflexivity). rewrite IQ.
  destruct CH as [Q|k EA NN Q|w V Q|o O NN A Q|m QU IN A Q|m QU IN A Q|EA NN QQ Q|EA QU IN Q].
  - rewrite Q. exact T.
  - rewrite NN in EE. discriminate.
  - rewrite Q. cbn. destruct (is_queue (x_reqs s r)).
    + destruct T as [T|[o T]]; [left; exact T|]. destruct V; congruence.
    + destruct T as [T|[T|[o T]]]; [left; exact T| |]; destruct V; try congruence; right; right; eexists; reflexivity.
  - assert (X : exists o', q_at (x_reqs s' r) = QDone o') by (exists o; rewrite Q; unfold over; destruct (is_queue _); reflexivity).
    destruct (is_queue (x_reqs s r)); tauto.
  - rewrite Q, QU in *. cbn. destruct T as [T|T]; [left|right; exact T]. destruct (q_at (x_reqs s r)); assumption || reflexivity.
  - rewrite QU in *. destruct T as [[l T]|[o T]]; [|right; exists o; rewrite Q; exact T]. exfalso.
    assert (X : q_got (x_reqs s' r) ++ q_queue (x_reqs s' r) = (map Some l ++ [None]) ++ [m]) by (rewrite Q; cbn; rewrite app_assoc, T; reflexivity).
    assert (H : forall l', (map Some l ++ [None]) ++ [m] <> map Some l' /\ forall m', (map Some l ++ [None]) ++ [m] <> map Some l' ++ [m']).
    { intros l'. split.
      - intros H. apply (none_In l'). rewrite <- H. apply in_app_iff. left. apply in_app_iff. right. left. reflexivity.
      - intros m' H. apply app_inj_tail in H. destruct H as [H _]. apply (none_In l'). rewrite <- H. apply in_app_iff. right. left. reflexivity. }
    destruct (k_nones _ K' r) as [l' [Y|[Y _]]]; rewrite X in Y; destruct (H l') as [H1 H2]; [exact (H1 Y)|exact (H2 _ Y)].
  - rewrite Q. cbn. destruct (is_queue (x_reqs s r)); [|exact T]. destruct T as [[l T]|T]; [|right; exact T]. left. exists l.
    rewrite <- T. destruct (q_queue (x_reqs s r)); [contradiction|]. rewrite <- app_assoc. reflexivity.
  - rewrite Q, QU in *. cbn. exact T.
Qed.
Lemma ready_step s a s' r : inv s -> mstep s a = Some s' -> ready s r -> ready s' r.
Proof.
  intros I E [EE T]. pose proof (step_change s a s' r (inv_blocked_queue s I) E) as CH.
  destruct (change_made _ _ _ _ _ CH (early_made _ EE)) as (_ & _ & KD & _ & EK & _). split; [exact (EK EE)|].
  assert (IQ : is_queue (x_reqs s' r) = is_queue (x_reqs s r)) by (unfold is_queue; rewrite KD; reflexivity). rewrite IQ. intros X. specialize (T X).
  destruct CH as [Q|k EA NN Q|w V Q|o O NN A Q|m QU IN A Q|m QU IN A Q|EA NN QQ Q|EA QU IN Q]; rewrite Q; cbn; try exact T.
  - discriminate.
  - destruct V as [AT| | | | | | | |]; try discriminate. rewrite AT in EE. discriminate.
  - discriminate.
Qed.
Lemma told_close s s' r l : inv s -> inv2 s -> x_disp s = DClosing (r :: l) -> mstep s CloseNext = Some s' -> ready s r -> told s' r.
Proof.
  intros I K D E [EE RD]. cbn in E. rewrite D in E. unfold told. destruct (is_queue (x_reqs s r)) eqn:Q.
  - destruct (q_closed (x_reqs s r)) eqn:C; [|destruct (room (x_reqs s r)); [|discriminate]]; injection E as <-; cbn.
    + rewrite Q. split; [exact EE|]. right. apply (k_open _ K r); [congruence|exact C].
    + rewrite set_same. unfold is_queue in *. cbn. rewrite Q. split; [exact EE|]. left.
      destruct (k_nones _ K r) as [m [H|(_ & _ & H)]]; [|destruct (H _ D); left; reflexivity]. exists m. rewrite app_assoc, H. reflexivity.
  - injection E as <-. cbn. rewrite set_same. unfold is_queue in *. cbn. rewrite Q. split; [exact EE|]. specialize (RD eq_refl).
    pose proof (k_stream _ K r Q) as NS. pose proof (k_woken _ K r) as KW.
    destruct (q_at (x_reqs s r)) as [| | | | | | | |o]; try discriminate; try contradiction; auto. right. right. exists o. reflexivity.
Qed.
Lemma told_run l : forall s s2 r rest, inv s -> inv2 s -> ready s r -> x_disp s = DClosing rest -> In r rest -> mexec s l = Some s2 ->
  told s2 r \/ exists rest2, x_disp s2 = DClosing rest2 /\ In r rest2.
Proof.
  assert (TR : forall l s s2 r, inv s -> inv2 s -> told s r -> mexec s l = Some s2 -> told s2 r).
  { clear. intros l. induction l as [|a l IH]; cbn; intros s s2 r I K T E; [injection E as <-; exact T|].
    destruct (mstep s a) as [s1|] eqn:E1; [|discriminate].
    exact (IH s1 s2 r (inv_step _ _ _ I E1) (inv2_step _ _ _ I K E1) (told_step _ _ _ r I K E1 T) E). }
  induction l as [|a l IH]; intros s s2 r rest I K RD D IN E; cbn in E; [injection E as <-; right; exists rest; auto|].
  destruct (mstep s a) as [s1|] eqn:E1; [|discriminate].
  assert (I1 := inv_step _ _ _ I E1). assert (K1 := inv2_step _ _ _ I K E1). assert (RD1 := ready_step _ _ _ r I E1 RD).
  destruct (actor a) as [t|] eqn:A.
  - destruct (actor_step _ _ _ _ E1 A) as (D1 & _). apply (IH s1 s2 r rest I1 K1 RD1); congruence.
  - destruct rest as [|r' rest]; [destruct IN|]. destruct a; try discriminate; try (cbn in E1; rewrite D in E1; discriminate).
    destruct IN as [->|IN].
    + left. exact (TR l s1 s2 r I1 K1 (told_close s s1 r rest I K D E1 RD) E).
    + apply (IH s1 s2 r rest I1 K1 RD1); [|exact IN|exact E]. cbn in E1. rewrite D in E1.
      repeat match type of E1 with context [match ?x with _ => _ end] => destruct x eqn:?; try discriminate end; injection E1 as <-; reflexivity.
Qed.
Lemma end_told s i r s1 l s2 : runs anything s -> In (i, r) (x_senders s) -> ready s r ->
  mstep s Close = Some s1 -> mexec s1 l = Some s2 -> x_disp s2 = DGone -> told s2 r.
Proof.
  intros R IN RD E E2 D. pose proof (runs_inv _ _ R) as I. pose proof (runs_inv2 _ _ R) as K.
  assert (I1 := inv_step _ _ _ I E). assert (K1 := inv2_step _ _ _ I K E). assert (RD1 := ready_step _ _ _ r I E RD).
  assert (D1 : x_disp s1 = DClosing (map snd (x_senders s))) by (cbn in E; destruct (x_disp s); try discriminate; injection E as <-; reflexivity).
  destruct (told_run l s1 s2 r _ I1 K1 RD1 D1) as [T|(rest & X & _)]; [|exact E2|exact T|congruence].
  change r with (snd (i, r)). apply in_map. exact IN.
Qed.
Lemma exec_runs (allowed : mux -> maction -> Prop) l : forall s s', (forall s a, allowed s a) -> runs allowed s -> mexec s l = Some s' -> runs allowed s'.
Proof.
  induction l as [|a l IH]; cbn; intros s s' AL R E; [injection E as <-; exact R|].
  destruct (mstep s a) as [s1|] eqn:E1; [|discriminate]. exact (IH s1 s' AL (runs_step _ _ _ _ R (AL s a) E1) E).
Qed.
Lemma exec_app l : forall s l' s', mexec s (l ++ l') = Some s' <-> exists s1, mexec s l = Some s1 /\ mexec s1 l' = Some s'.
Proof.
  induction l as [|a l IH]; cbn; intros s l' s'.
  - split; [intros H; exists s; auto|]. intros (s1 & H & H'). injection H as <-. exact H'.
  - destruct (mstep s a) as [s1|]; [apply IH|]. split; [discriminate|]. intros (s1 & H & _). discriminate.
Qed.
Lemma told_stream s i r s1 l s2 : runs anything s -> In (i, r) (x_senders s) ->
  mstep s Close = Some s1 -> mexec s1 l = Some s2 -> x_disp s2 = DGone -> q_at (x_reqs s2 r) = QStream ->
  exists got, q_got (x_reqs s2 r) ++ q_queue (x_reqs s2 r) = map Some got ++ [None].
Proof.
  intros R IN E E2 D AT. assert (R1 : runs anything s1) by exact (runs_step _ _ _ _ R Logic.I E).
  assert (R2 : runs anything s2) by exact (exec_runs anything l s1 s2 (fun _ _ => Logic.I) R1 E2).
  assert (Q2 : is_queue (x_reqs s2 r) = true).
  { destruct (is_queue (x_reqs s2 r)) eqn:Q; [reflexivity|]. destruct (k_stream _ (runs_inv2 _ _ R2) r Q AT). }
  assert (KEEP : forall l s s2, inv s -> early (q_at (x_reqs s r)) = false -> mexec s l = Some s2 -> is_queue (x_reqs s2 r) = is_queue (x_reqs s r)).
  { clear. intros l. induction l as [|a l IH]; cbn; intros s s2 I EE E; [injection E as <-; reflexivity|].
    destruct (mstep s a) as [s1|] eqn:E1; [|discriminate].
    destruct (change_made _ _ _ _ _ (step_change s a s1 r (inv_blocked_queue s I) E1) (early_made _ EE)) as (_ & _ & KD & _ & EK & _).
    rewrite (IH s1 s2 (inv_step _ _ _ I E1) (EK EE) E). unfold is_queue. rewrite KD. reflexivity. }
  assert (EE : early (q_at (x_reqs s r)) = false) by exact (proj2 (i_senders _ (runs_inv _ _ R) i r IN)).
  assert (Q : is_queue (x_reqs s r) = true).
  { rewrite <- Q2. symmetry. apply (KEEP (Close :: l)); [exact (runs_inv _ _ R)|exact EE|]. cbn [mexec]. rewrite E. exact E2. }
  assert (RD : ready s r) by (split; [exact EE|congruence]).
  destruct (end_told s i r s1 l s2 R IN RD E E2 D) as [_ T]. rewrite Q2 in T. destruct T as [T|[o T]]; [exact T|congruence].
Qed.
Lemma told_serial s i r s1 l s2 : runs anything s -> In (i, r) (x_senders s) -> q_at (x_reqs s r) = QListening \/ q_at (x_reqs s r) = QWaiting ->
  mstep s Close = Some s1 -> mexec s1 l = Some s2 -> x_disp s2 = DGone -> q_at (x_reqs s2 r) = QWaiting ->
  exists s3 o, mexec s2 [Notified r; Finish r] = Some s3 /\ q_at (x_reqs s3 r) = QDone o.
Proof.
  intros R IN AT E E2 D AT2. assert (RD : ready s r) by (split; destruct AT as [->| ->]; [reflexivity|reflexivity|discriminate|discriminate]).
  destruct (end_told s i r s1 l s2 R IN RD E E2 D) as [_ T].
  assert (R1 : runs anything s1) by exact (runs_step _ _ _ _ R Logic.I E).
  assert (R2 : runs anything s2) by exact (exec_runs anything l s1 s2 (fun _ _ => Logic.I) R1 E2).
  assert (N : q_note (x_reqs s2 r) = true).
  { destruct (is_queue (x_reqs s2 r)) eqn:Q.
    - pose proof (k_serial _ (runs_inv2 _ _ R2) r Q) as X. rewrite AT2 in X. destruct X.
    - destruct T as [T|[T|[o T]]]; [exact T|congruence|congruence]. }
  cbn. rewrite AT2, N. cbn. rewrite set_same. unfold unlocked. cbn. rewrite D. eexists. eexists. split; [reflexivity|]. cbn. rewrite set_same. reflexivity.
Qed.

(** After the end nothing comes. *)
Lemma stuck_step s a s' r : inv s -> inv2 s -> x_disp s = DGone -> q_at (x_reqs s r) = QStream -> q_queue (x_reqs s r) = [] -> q_closed (x_reqs s r) = false ->
  a <> Cancel r -> mstep s a = Some s' -> x_disp s' = DGone /\ x_reqs s' r = x_reqs s r.
Proof.
  intros I K D AT QE C N E. split; [exact (gone_step _ _ _ E D)|].
  destruct (step_change s a s' r (inv_blocked_queue s I) E) as [Q|k EA NN Q|w V Q|o O NN A Q|m QU IN A Q|m QU IN A Q|EA NN QQ Q|EA QU IN Q].
  - exact Q.
  - congruence.
  - destruct V; congruence.
  - destruct A as [-> | ->]; [|congruence]. exfalso. cbn in E. rewrite AT in E. discriminate.
  - destruct (k_stream _ K r QU AT).
  - exfalso. destruct A as [(_ & EA & l & X)|[(i & b & _ & -> & _)|(b & _ & _ & X)]]; [congruence| |congruence]. cbn in E. rewrite D in E. discriminate.
  - congruence.
  - subst a. cbn in E. rewrite D in E. discriminate.
Qed.
Lemma stuck l : forall s s' r, runs anything s -> x_disp s = DGone -> q_at (x_reqs s r) = QStream -> q_queue (x_reqs s r) = [] -> q_closed (x_reqs s r) = false ->
  ~ In (Cancel r) l -> mexec s l = Some s' -> x_reqs s' r = x_reqs s r.
Proof.
  induction l as [|a l IH]; cbn; intros s s' r R D AT QE C N E; [injection E as <-; reflexivity|].
  destruct (mstep s a) as [s1|] eqn:E1; [|discriminate].
  destruct (stuck_step s a s1 r (runs_inv _ _ R) (runs_inv2 _ _ R) D AT QE C) as [D1 X]; [intros ->; apply N; left; reflexivity|exact E1|].
  rewrite <- X. apply IH; try (rewrite X; assumption); try assumption; [exact (runs_step _ _ _ _ R Logic.I E1)|tauto].
Qed.

(** * The lock *)

Lemma blocked_free s r b : runs anything s -> x_disp s = DBlocked r b -> ~ full s r ->
  exists s', mstep s Unblock = Some s' /\ x_disp s' = DIdle.
Proof.
  intros R D N. pose proof (inv_blocked_queue _ (runs_inv _ _ R) r b D) as Q. cbn. rewrite D. unfold full in N.
  destruct (q_closed (x_reqs s r)); [eexists; split; reflexivity|]. destruct (room (x_reqs s r)); [eexists; split; reflexivity|]. destruct N; auto.
Qed.
Lemma closing_free l : forall s, NoDup l -> x_disp s = DClosing l -> (forall r, In r l -> ~ full s r) ->
  exists las s', (forall a, In a las -> of_dispatcher a) /\ mexec s las = Some s' /\ x_disp s' = DGone.
Proof.
  induction l as [|r l IH]; intros s ND D N.
  - exists [CloseNext]. cbn. rewrite D. eexists. split; [intros a [<-|[]]; exact Logic.I|]. split; reflexivity.
  - inversion ND as [|? ? NI ND']; subst.
    assert (X : exists s1, mstep s CloseNext = Some s1 /\ x_disp s1 = DClosing l /\ forall r', r' <> r -> x_reqs s1 r' = x_reqs s r').
    { cbn. rewrite D. pose proof (N r (or_introl eq_refl)) as F. unfold full in F. destruct (is_queue (x_reqs s r)).
      - destruct (q_closed (x_reqs s r)); [eexists; split; [reflexivity|]; split; [reflexivity|intros; reflexivity]|].
        destruct (room (x_reqs s r)); [|destruct F; auto]. eexists. split; [reflexivity|]. split; [reflexivity|]. intros r' H. cbn. apply set_other. exact H.
      - eexists. split; [reflexivity|]. split; [reflexivity|]. intros r' H. cbn. apply set_other. exact H. }
    destruct X as (s1 & E1 & D1 & S1). destruct (IH s1 ND' D1) as (las & s' & OF & E & D').
    + intros r' H. unfold full. rewrite S1 by congruence. apply (N r'). right. exact H.
    + exists (CloseNext :: las), s'. split; [intros a [<-|H]; [exact Logic.I|exact (OF a H)]|]. split; [|exact D']. cbn [mexec]. rewrite E1. exact E.
Qed.
Lemma lock_free s : runs anything s -> (forall r, ~ full s r) ->
  exists las s', (forall a, In a las -> of_dispatcher a) /\ mexec s las = Some s' /\ unlocked s' = true.
Proof.
  intros R N. destruct (x_disp s) as [|r b|l|] eqn:D.
  - exists [], s. split; [intros a []|]. split; [reflexivity|]. unfold unlocked. rewrite D. reflexivity.
  - destruct (blocked_free s r b R D (N r)) as (s' & E & D'). exists [Unblock], s'. split; [intros a [<-|[]]; exact Logic.I|].
    cbn [mexec]. rewrite E. split; [reflexivity|]. unfold unlocked. rewrite D'. reflexivity.
  - destruct (closing_free l s (k_disp _ (runs_inv2 _ _ R) l D) D (fun r _ => N r)) as (las & s' & OF & E & D').
    exists las, s'. split; [exact OF|]. split; [exact E|]. unfold unlocked. rewrite D'. reflexivity.
  - exists [], s. split; [intros a []|]. split; [reflexivity|]. unfold unlocked. rewrite D. reflexivity.
Qed.
Lemma free_goes_on s r : unlocked s = true ->
  (q_at (x_reqs s r) = QHasId -> mstep s (Insert r) <> None)
  /\ (q_at (x_reqs s r) = QWoken -> mstep s (Finish r) <> None)
  /\ (q_at (x_reqs s r) = QTimingOut -> mstep s (FinishTimeout r) <> None).
Proof. intros U. repeat split; intros AT; cbn; rewrite AT, U; discriminate. Qed.

(** A full stream that is not read holds everything up. *)
Lemma held_step s a s' r b : inv s -> x_disp s = DBlocked r b -> full s r -> q_at (x_reqs s r) = QStream ->
  a <> Pop r -> a <> Cancel r -> mstep s a = Some s' ->
  x_disp s' = DBlocked r b /\ x_reqs s' r = x_reqs s r /\ x_frames s' = x_frames s
  /\ forall r', a <> Cancel r' -> waits (q_at (x_reqs s r')) -> waits (q_at (x_reqs s' r')).
Proof.
  intros I D (Q & C & RM) AT NP NC E. destruct (actor a) as [t|] eqn:A.
  2: { exfalso. destruct a; try discriminate; cbn in E; rewrite D in E; try discriminate. rewrite C, RM in E. discriminate. }
  destruct (actor_step _ _ _ _ E A) as (D' & FR & SAME).
  assert (U : unlocked s = false) by (unfold unlocked; rewrite D; reflexivity).
  split; [congruence|]. split; [|split; [exact FR|]].
  - destruct (Nat.eq_dec r t) as [->|N]; [|exact (SAME r N)].
    destruct (step_change s a s' t (inv_blocked_queue s I) E) as [X|k EA NN X|w V X|o O NN B' X|m QU IN B' X|m QU IN B' X|EA NN QQ X|EA QU IN X].
    + exact X.
    + congruence.
    + destruct V; congruence.
    + destruct B' as [->| ->]; [|congruence]. exfalso. cbn in E. rewrite AT in E. discriminate.
    + congruence.
    + exfalso. destruct B' as [(_ & -> & _)|[(i & b' & _ & -> & _)|(b' & _ & -> & _)]]; discriminate.
    + congruence.
    + subst a. discriminate.
  - intros r' N' W. destruct (Nat.eq_dec r' t) as [->|N]; [|rewrite (SAME r' N); exact W].
    destruct (step_change s a s' t (inv_blocked_queue s I) E) as [X|k EA NN X|w V X|o O NN B' X|m QU IN B' X|m QU IN B' X|EA NN QQ X|EA QU IN X];
      rewrite X; try exact W; try exact Logic.I.
    + destruct V as [A1|A1|A1|c A1|A1|b' A1|A1|A1|A1]; cbn; try exact Logic.I; rewrite A1 in W; try (exfalso; exact W); cbn in E; rewrite A1, U in E; discriminate.
    + exfalso. destruct B' as [->| ->]; [|congruence]. cbn in E. destruct (q_at (x_reqs s t)), (q_kind (x_reqs s t)); try discriminate; exact W.
Qed.
Lemma held l : forall s s' r b, runs anything s -> x_disp s = DBlocked r b -> full s r -> q_at (x_reqs s r) = QStream ->
  ~ In (Pop r) l -> ~ In (Cancel r) l -> mexec s l = Some s' ->
  x_disp s' = DBlocked r b /\ x_frames s' = x_frames s
  /\ forall r', ~ In (Cancel r') l -> waits (q_at (x_reqs s r')) -> waits (q_at (x_reqs s' r')).
Proof.
  induction l as [|a l IH]; cbn; intros s s' r b R D F AT NP NC E; [injection E as <-; auto|].
  destruct (mstep s a) as [s1|] eqn:E1; [|discriminate].
  destruct (held_step s a s1 r b (runs_inv _ _ R) D F AT) as (D1 & X & FR & W); [intros ->; tauto|intros ->; tauto|exact E1|].
  assert (R1 : runs anything s1) by exact (runs_step _ _ _ _ R Logic.I E1).
  destruct (IH s1 s' r b R1 D1) as (D2 & FR2 & W2); [unfold full; rewrite X; exact F|congruence|tauto|tauto|exact E|].
  split; [exact D2|]. split; [congruence|]. intros r' N H. apply W2; [tauto|]. apply W; [intros ->; tauto|exact H].
Qed.

(** * After 2^32 requests *)

Lemma many_starts s n : runs answers s -> (forall r, (1 <= r)%nat -> q_at (x_reqs s r) = QNone) ->
  exists s', runs answers s' /\ x_started s' = x_started s + Z.of_nat n
    /\ x_senders s' = x_senders s /\ x_disp s' = x_disp s /\ x_frames s' = x_frames s /\ x_sent s' = x_sent s
    /\ x_reqs s' 0%nat = x_reqs s 0%nat /\ forall r, (1 + n <= r)%nat -> q_at (x_reqs s' r) = QNone.
Proof.
  intros R N. induction n as [|n IH].
  - exists s. split; [exact R|]. split; [lia|]. repeat (split; [reflexivity|]). intros r H. apply N. lia.
  - destruct IH as (s1 & R1 & C1 & S1 & D1 & F1 & X1 & Q1 & N1).
    assert (E : mstep s1 (Start (1 + n) Serial) = Some (mkX (wrap_s 32 (x_next s1 + 1)) (x_senders s1)
            (set (x_reqs s1) (1 + n) (mkQ Serial (x_started s1) (x_next s1) QHasId None false [] false [])) (x_disp s1) (x_stale s1)
            (x_started s1 + 1) (x_sent s1) (x_frames s1))).
    { cbn [mstep]. rewrite (N1 (1 + n)%nat) by lia. reflexivity. }
    eexists. split; [exact (runs_step answers s1 (Start (1 + n) Serial) _ R1 Logic.I E)|]. cbn [x_started x_senders x_disp x_frames x_sent x_reqs].
    split; [lia|]. split; [exact S1|]. split; [exact D1|]. split; [exact F1|]. split; [exact X1|].
    split; [rewrite set_other by lia; exact Q1|]. intros r H. rewrite set_other by lia. apply N1. lia.
Qed.
Definition stream0 : req := mkQ (Queue 1) 0 1 QStream None false [] false [].
Lemma first_stream : exists s, runs answers s /\ x_started s = 1 /\ x_senders s = [(1, 0%nat)] /\ x_disp s = DIdle
  /\ x_sent s = [(1, 0%nat)] /\ x_reqs s 0%nat = stream0 /\ forall r, (1 <= r)%nat -> q_at (x_reqs s r) = QNone.
Proof.
  eexists. split.
  - refine (runs_step answers _ (Send 0%nat) _ (runs_step answers _ (Insert 0%nat) _ (runs_step answers _ (Start 0%nat (Queue 1)) _ (runs_new answers) Logic.I _) Logic.I _) Logic.I _);
      reflexivity.
  - repeat (split; [reflexivity|]). intros [|r] H; [lia|reflexivity].
Qed.
Lemma wrapped_tail reqs stale n frames r1 (b : B) : reqs 0%nat = stream0 -> q_at (reqs r1) = QNone -> r1 <> 0%nat ->
  let s := mkX 1 [(1, 0%nat)] reqs DIdle stale n [(1, 0%nat)] frames in
  exists s0 s1 s2, mexec s [Start r1 Serial; Insert r1; Listen r1] = Some s0 /\ x_reqs s0 0%nat = stream0 /\ x_sent s0 = [(1, 0%nat)]
  /\ mstep s0 (Frame 1 b) = Some s1
  /\ mexec s1 [Send r1; Notified r1; Finish r1] = Some s2
  /\ x_reqs s2 0%nat = stream0 /\ q_at (x_reqs s2 r1) = QDone (Response b).
Proof.
  intros Q0 N NZ s. unfold s. clear s.
  assert (NZ' : 0%nat <> r1) by congruence.
  eexists. eexists. eexists. split.
  { repeat first [progress cbn -[wrap_s set]|rewrite N|rewrite set_same]. reflexivity. }
  split; [cbn -[wrap_s set]; rewrite !set_other by exact NZ'; exact Q0|]. split; [reflexivity|].
  split; [cbn -[wrap_s set]; reflexivity|].
  split.
  { repeat first [rewrite set_same|progress cbn -[wrap_s set]|progress unfold send, find_sender]. reflexivity. }
  split; [cbn -[wrap_s set]; rewrite !set_other by exact NZ'; exact Q0|]. repeat first [progress cbn -[wrap_s set]|rewrite set_same]. reflexivity.
Qed.
Lemma exec_answers l : forall s s', (forall i b, ~ In (Frame i b) l) -> runs answers s -> mexec s l = Some s' -> runs answers s'.
Proof.
  induction l as [|a l IH]; cbn [mexec]; intros s s' NF R E; [injection E as <-; exact R|].
  destruct (mstep s a) as [s1|] eqn:E1; [|discriminate]. apply (IH s1 s'); [intros i b H; apply (NF i b); right; exact H| |exact E].
  refine (runs_step answers s a s1 R _ E1). destruct a; try exact Logic.I. destruct (NF i b). left. reflexivity.
Qed.
Lemma wrapped (b : B) : exists s0 s1 s2 r0 r1,
  runs answers s0 /\ q_at (x_reqs s0 r0) = QStream /\ In (q_id (x_reqs s0 r0), r0) (x_sent s0) /\ (forall i, ~ In (i, r1) (x_sent s0))
  /\ mstep s0 (Frame (q_id (x_reqs s0 r0)) b) = Some s1
  /\ mexec s1 [Send r1; Notified r1; Finish r1] = Some s2
  /\ q_at (x_reqs s2 r1) = QDone (Response b) /\ x_reqs s2 r0 = x_reqs s0 r0.
Proof.
  destruct first_stream as (s & R & C & S & D & X & Q & N). set (n := Z.to_nat (2 ^ 32 - 1)).
  assert (EN : Z.of_nat n = 2 ^ 32 - 1) by (unfold n; rewrite Z2Nat.id; lia). clearbody n.
  destruct (many_starts s n R N) as (s1 & R1 & C1 & S1 & D1 & F1 & X1 & Q1 & N1).
  assert (NX : x_next s1 = 1).
  { rewrite (i_next _ (runs_inv _ _ R1)), C1, C, EN. reflexivity. }
  assert (P : s1 = mkX 1 [(1, 0%nat)] (x_reqs s1) DIdle (x_stale s1) (x_started s1) [(1, 0%nat)] (x_frames s1)).
  { rewrite <- NX at 1. rewrite <- S at 1. rewrite <- S1, <- D, <- D1, <- X, <- X1. destruct s1; reflexivity. }
  destruct (wrapped_tail (x_reqs s1) (x_stale s1) (x_started s1) (x_frames s1) (1 + n) b) as (s2 & s3 & s4 & E1 & Q2 & X2 & E2 & E3 & Q3 & O);
    [rewrite Q1; exact Q|apply N1; lia|lia|].
  rewrite <- P in E1. exists s2, s3, s4, 0%nat, (1 + n)%nat. rewrite Q2, X2. cbn [q_at q_id stream0].
  split; [refine (exec_answers _ s1 s2 _ R1 E1); intros i b' [H|[H|[H|[]]]]; discriminate|].
  split; [reflexivity|]. split; [left; reflexivity|]. split; [intros i [H|[]]; discriminate|]. split; [exact E2|]. split; [exact E3|].
  split; [exact O|exact Q3].
Qed.
End Mux.

(** * Cases *)

Definition answers_b (s : mux Z) (a : maction Z) : bool :=
  match a with Frame i _ => existsb (fun e => fst e =? i) (x_sent s) | _ => true end.
Fixpoint go (s : mux Z) (l : list (maction Z)) : option (mux Z) :=
  match l with
  | [] => Some s
  | a :: l' => if answers_b s a then match mstep s a with Some s' => go s' l' | None => None end else None
  end.
Lemma go_runs l : forall s s', runs answers s -> go s l = Some s' -> runs answers s' /\ mexec s l = Some s'.
Proof.
  induction l as [|a l IH]; cbn; intros s s' R E; [injection E as <-; auto|]. destruct (answers_b s a) eqn:A; [|discriminate].
  destruct (mstep s a) as [s1|] eqn:E1; [|discriminate]. apply IH; [|exact E]. refine (runs_step answers s a s1 R _ E1).
  destruct a; try exact I. cbn in A. apply existsb_exists in A. destruct A as ([j r] & IN & X). cbn in X. apply Z.eqb_eq in X. subst j. exists r. exact IN.
Qed.
Lemma started l s : go new_mux l = Some s -> runs answers s.
Proof. intros E. exact (proj1 (go_runs l _ _ (runs_new answers) E)). Qed.
Lemma answers_anything {B} (s : mux B) : runs answers s -> runs anything s.
Proof. induction 1 as [|s a s' R IH A E]; [constructor|exact (runs_step _ _ _ _ IH I E)]. Qed.

Notation stream_open r c := [Start r (Queue c); Insert r; Send r].
Notation request_waits r := [Start r Serial; Insert r; Listen r; Send r].
Ltac run l := eexists; split; [apply (started l); vm_compute; reflexivity|].

Lemma both_case : exists s, runs answers s /\ few s /\ x_disp s = DIdle
  /\ q_at (x_reqs s 0%nat) = QStream /\ q_at (x_reqs s 1%nat) = QWaiting
  /\ x_frames s = [(1, 7); (2, 8); (1, 9)] /\ q_got (x_reqs s 0%nat) = [Some 7] /\ q_queue (x_reqs s 0%nat) = [Some 9]
  /\ came s (q_id (x_reqs s 1%nat)) = [] ++ [8].
Proof.
  run (stream_open 0%nat 1%nat ++ request_waits 1%nat ++ [Frame 1 7; Frame 2 8; Frame 1 9; Pop 0%nat; Unblock]).
  split; [unfold few; cbn; lia|]. repeat (split; [reflexivity|]). reflexivity.
Qed.
Lemma waiting_case : exists s : mux Z, runs answers s /\ few s /\ is_open s /\ q_at (x_reqs s 1%nat) = QWaiting /\ came s (q_id (x_reqs s 1%nat)) = [].
Proof.
  run (stream_open 0%nat 1%nat ++ request_waits 1%nat ++ [Frame 1 7]).
  split; [unfold few; cbn; lia|]. split; [exact I|]. split; reflexivity.
Qed.
Lemma lost_response : exists (s s' : mux Z) r b l, runs answers s /\ few s
  /\ q_at (x_reqs s r) = QWaiting /\ came s (q_id (x_reqs s r)) = [b]
  /\ mexec s l = Some s' /\ q_at (x_reqs s' r) = QDone Closed.
Proof.
  assert (X : exists s, runs answers s /\ s = match go new_mux (request_waits 0%nat ++ [Frame 1 7]) with Some s => s | None => new_mux end).
  { eexists. split; [|reflexivity]. apply (started (request_waits 0%nat ++ [Frame 1 7])). vm_compute. reflexivity. }
  destruct X as (s & R & E). vm_compute in E. exists s. eexists. exists 0%nat, 7, [Close; CloseNext; CloseNext; Notified 0%nat; Finish 0%nat].
  split; [exact R|]. subst s. split; [unfold few; cbn; lia|]. split; [reflexivity|]. split; [reflexivity|]. split; [vm_compute; reflexivity|reflexivity].
Qed.
Lemma held_up : exists (s : mux Z) r b r', runs answers s /\ few s /\ x_disp s = DBlocked r b /\ full s r /\ q_at (x_reqs s r) = QStream
  /\ r' <> r /\ waits (q_at (x_reqs s r'))
  /\ forall l s', ~ In (Pop r) l -> ~ In (Cancel r) l -> ~ In (Cancel r') l -> mexec s l = Some s' -> waits (q_at (x_reqs s' r')).
Proof.
  assert (X : exists s, runs answers s /\ few s /\ x_disp s = DBlocked 0%nat 9 /\ full s 0%nat /\ q_at (x_reqs s 0%nat) = QStream /\ waits (q_at (x_reqs s 1%nat))).
  { run (stream_open 0%nat 1%nat ++ request_waits 1%nat ++ [Frame 1 7; Frame 2 8; Frame 1 9]).
    split; [unfold few; cbn; lia|]. split; [reflexivity|]. split; [repeat split; reflexivity|]. split; [reflexivity|exact I]. }
  destruct X as (s & R & F & D & FU & AT & W). exists s, 0%nat, 9, 1%nat. repeat (split; [assumption || discriminate|]).
  intros l s' NP NC NC' E. destruct (held l s s' 0%nat 9 (answers_anything _ R) D FU AT NP NC E) as (_ & _ & H). exact (H 1%nat NC' W).
Qed.
Lemma freed_case : exists s : mux Z, runs answers s /\ (forall r, ~ full s r) /\ x_disp s = DBlocked 0%nat 9.
Proof.
  run (stream_open 0%nat 1%nat ++ request_waits 1%nat ++ [Frame 1 7; Frame 1 9; Pop 0%nat]).
  split; [|reflexivity]. intros [|[|r]] (Q & C & R); cbn in *; discriminate.
Qed.
Lemma late_stream : exists (s : mux Z) r, runs answers s /\ x_disp s = DGone /\ q_at (x_reqs s r) = QStream
  /\ forall l s', ~ In (Cancel r) l -> mexec s l = Some s' -> q_at (x_reqs s' r) = QStream /\ q_got (x_reqs s' r) = [] /\ q_queue (x_reqs s' r) = [] /\ q_closed (x_reqs s' r) = false.
Proof.
  assert (X : exists s : mux Z, runs answers s /\ x_disp s = DGone /\ x_reqs s 0%nat = mkQ (Queue 1) 0 1 QStream None false [] false []).
  { run ((Close : maction Z) :: CloseNext :: stream_open 0%nat 1%nat). split; reflexivity. }
  destruct X as (s & R & D & Q). exists s, 0%nat. split; [exact R|]. split; [exact D|]. split; [rewrite Q; reflexivity|].
  intros l s' N E. rewrite (stuck l s s' 0%nat (answers_anything _ R) D); try assumption; rewrite Q; try reflexivity. auto.
Qed.
Lemma told_once : exists (s : mux Z) r, runs answers s /\ x_disp s = DGone /\ q_at (x_reqs s r) = QStream /\ q_got (x_reqs s r) = [None]
  /\ forall l s', ~ In (Cancel r) l -> mexec s l = Some s' -> mstep s' (Pop r) = None /\ q_closed (x_reqs s' r) = false.
Proof.
  assert (X : exists s : mux Z, runs answers s /\ x_disp s = DGone /\ x_reqs s 0%nat = mkQ (Queue 1) 0 1 QStream None false [] false [None]).
  { run (stream_open 0%nat 1%nat ++ [(Close : maction Z); CloseNext; CloseNext; Pop 0%nat]). split; reflexivity. }
  destruct X as (s & R & D & Q). exists s, 0%nat. split; [exact R|]. split; [exact D|]. split; [rewrite Q; reflexivity|]. split; [rewrite Q; reflexivity|].
  intros l s' N E. assert (Y : x_reqs s' 0%nat = x_reqs s 0%nat).
  { apply (stuck l s s' 0%nat (answers_anything _ R) D); try assumption; rewrite Q; reflexivity. }
  cbn. rewrite Y, Q. split; reflexivity.
Qed.
Definition unready_at (s : mux Z) (r : task) : Prop :=
  x_disp s = DGone /\ is_queue (x_reqs s r) = false /\
  ((q_at (x_reqs s r) = QWaiting /\ q_note (x_reqs s r) = false) \/ q_at (x_reqs s r) = QTimingOut
   \/ q_at (x_reqs s r) = QDone TimedOut \/ q_at (x_reqs s r) = QDone Cancelled).
Lemma unready_step s a s' r : inv s -> unready_at s r -> mstep s a = Some s' -> unready_at s' r.
Proof.
  intros I (D & IQ & W) E. split; [exact (gone_step _ _ _ E D)|].
  assert (IQ' : is_queue (x_reqs s' r) = false).
  { assert (M : q_at (x_reqs s r) <> QNone) by (destruct W as [[W _]|[W|[W|W]]]; rewrite W; discriminate).
    destruct (change_made _ _ _ _ _ (step_change s a s' r (inv_blocked_queue s I) E) M) as (_ & _ & K & _). unfold is_queue in *. rewrite K. exact IQ. }
  split; [exact IQ'|].
  destruct (step_change s a s' r (inv_blocked_queue s I) E) as [X|k EA NN X|w V X|o O NN B' X|m QU IN B' X|m QU IN B' X|EA NN QQ X|EA QU IN X].
  - rewrite X. exact W.
  - rewrite NN in W. destruct W as [[W _]|[W|[W|W]]]; discriminate.
  - rewrite X. cbn. destruct V as [A1|A1|A1|c A1|A1 A2|b' A1|A1|A1|A1]; rewrite A1 in W; destruct W as [[W W']|[W|[W|W]]]; try discriminate; auto. congruence.
  - rewrite X. unfold over. rewrite IQ. cbn. destruct B' as [->| ->].
    + exfalso. cbn in E. destruct W as [[W _]|[W|[W|W]]]; rewrite W in E; discriminate.
    + cbn in E. destruct (q_at (x_reqs s r)) eqn:AT; try discriminate; right; right; right; destruct O; subst o; try reflexivity; exfalso;
        injection E as <-; cbn in X; rewrite set_same in X; unfold over in X; rewrite IQ in X; apply (f_equal q_at) in X; discriminate.
  - exfalso. destruct B' as [[_ [->| ->]]|(i & b' & _ & -> & _)]; cbn in E; rewrite D in E; discriminate.
  - congruence.
  - rewrite NN in W. destruct W as [[W _]|[W|[W|W]]]; discriminate.
  - congruence.
Qed.
Lemma unready_request : exists (s : mux Z) r, runs answers s /\ In (q_id (x_reqs s r), r) (x_senders s)
  /\ exists s1 l s2, mstep s Close = Some s1 /\ mexec s1 l = Some s2 /\ x_disp s2 = DGone /\ q_at (x_reqs s2 r) = QWaiting
  /\ forall l' s3, mexec s2 l' = Some s3 -> q_at (x_reqs s3 r) = QWaiting \/ q_at (x_reqs s3 r) = QTimingOut
       \/ q_at (x_reqs s3 r) = QDone TimedOut \/ q_at (x_reqs s3 r) = QDone Cancelled.
Proof.
  assert (X : exists s s1 s2 : mux Z, runs answers s /\ In (q_id (x_reqs s 0%nat), 0%nat) (x_senders s) /\ mstep s Close = Some s1
    /\ mexec s1 [CloseNext; CloseNext; Listen 0%nat; Send 0%nat] = Some s2 /\ unready_at s2 0%nat /\ q_at (x_reqs s2 0%nat) = QWaiting).
  { eexists. eexists. eexists. split; [apply (started [Start 0%nat Serial; Insert 0%nat]); vm_compute; reflexivity|].
    split; [left; reflexivity|]. split; [vm_compute; reflexivity|]. split; [vm_compute; reflexivity|].
    split; [|reflexivity]. split; [reflexivity|]. split; [reflexivity|]. left. split; reflexivity. }
  destruct X as (s & s1 & s2 & R & IN & E1 & E2 & U & AT). exists s, 0%nat. split; [exact R|]. split; [exact IN|].
  exists s1, [CloseNext; CloseNext; Listen 0%nat; Send 0%nat], s2. split; [exact E1|]. split; [exact E2|]. split; [exact (proj1 U)|]. split; [exact AT|].
  assert (R2 : runs anything s2).
  { apply (exec_runs anything [CloseNext; CloseNext; Listen 0%nat; Send 0%nat] s1 s2 (fun _ _ => I)); [|exact E2].
    exact (runs_step anything s Close s1 (answers_anything _ R) I E1). }
  assert (G : forall l' sa s3, runs anything sa -> unready_at sa 0%nat -> mexec sa l' = Some s3 -> unready_at s3 0%nat).
  { clear. intros l'. induction l' as [|a l' IH]; cbn; intros sa s3 R U E; [injection E as <-; exact U|].
    destruct (mstep sa a) as [sb|] eqn:E1; [|discriminate].
    exact (IH sb s3 (runs_step anything sa a sb R I E1) (unready_step _ _ _ _ (runs_inv _ _ R) U E1) E). }
  intros l' s3 E. destruct (G l' s2 s3 R2 U E) as (_ & _ & W). destruct W as [[W _]|W]; [left; exact W|right; exact W].
Qed.
Lemma end_case : exists (s s1 s2 : mux Z) l, runs anything s /\ In (1, 0%nat) (x_senders s) /\ In (2, 1%nat) (x_senders s) /\ q_at (x_reqs s 1%nat) = QWaiting
  /\ mstep s Close = Some s1 /\ mexec s1 l = Some s2 /\ x_disp s2 = DGone /\ q_at (x_reqs s2 0%nat) = QStream /\ q_at (x_reqs s2 1%nat) = QWaiting.
Proof.
  eexists. eexists. eexists. exists [CloseNext; CloseNext; CloseNext].
  split; [apply answers_anything, (started (stream_open 0%nat 1%nat ++ request_waits 1%nat)); vm_compute; reflexivity|].
  split; [left; reflexivity|]. split; [right; left; reflexivity|]. split; [reflexivity|]. split; [vm_compute; reflexivity|].
  split; [vm_compute; reflexivity|]. repeat split; reflexivity.
Qed.
