(** Proofs about WaitModel: what happens to one object. *)
From Verif Require Import Base WaitModel WaitSpec.

(** * One object *)
Record view := mkV { v_kv : option wobj; v_ev : list wevent; v_st : option wobj; v_qu : list waction }.
Definition evk (k : Z) (l : list wevent) := filter (fun e => event_key e =? k) l.
Definition quk (k : Z) (l : list waction) := filter (fun a => act_key a =? k) l.
Definition view_of (s : waits) (k : Z) : view := mkV (x_kv s k) (evk k (x_events s)) (x_store s k) (quk k (x_queue s)).

Definition put1 (kv : option wobj) (o : wobj) : option wobj :=
  match kv with
  | None => Some o
  | Some prev => if w_rev o <? w_rev prev then None else Some (mkW (w_rev prev + 1) (w_spec o) (w_status o))
  end.
Definition mod1 (st : option wobj) (o : wobj) : option wobj :=
  match st with
  | None => Some o
  | Some c => if w_rev o <? w_rev c then Some c else Some o
  end.
Definition vwrite (v : view) (k : Z) (q : list waction) (o : wobj) : view :=
  match put1 (v_kv v) o with
  | None => mkV (v_kv v) (v_ev v) (v_st v) q
  | Some o' => mkV (Some o') (v_ev v ++ [EMod k o']) (v_st v) q
  end.
Definition vdispatch (v : view) (k : Z) (a : waction) (q : list waction) : view :=
  match a with
  | AUpdateSpec _ sp =>
    match v_st v, v_kv v with
    | Some so, Some ko => vwrite v k q (mkW (w_rev so) sp (w_status ko))
    | Some so, None => vwrite v k q (mkW (w_rev so) sp 0)
    | None, Some ko => vwrite v k q (mkW (w_rev ko) sp (w_status ko))
    | None, None => vwrite v k q (mkW 0 sp 0)
    end
  | AUpdateStatus _ t =>
    match v_st v, v_kv v with
    | Some so, Some ko =>
      match put1 (v_kv v) (mkW (w_rev so) (w_spec ko) t) with
      | None => mkV (v_kv v) (v_ev v) (v_st v) q
      | Some o' => mkV (Some o') (v_ev v ++ [EMod k o']) (mod1 (v_st v) o') q
      end
    | _, _ => mkV (v_kv v) (v_ev v) (v_st v) q
    end
  | ADelete _ =>
    match v_st v, v_kv v with
    | Some _, Some _ => mkV None (v_ev v ++ [EDel k]) (v_st v) q
    | _, _ => mkV (v_kv v) (v_ev v) (v_st v) q
    end
  end.
Definition vevent (st : option wobj) (e : wevent) : option wobj :=
  match e with EMod _ o => mod1 st o | EDel _ => None end.

(** What can happen to object [k] while request [q], in phase [p], is the only one. *)
Inductive vstep (k : Z) (q : request) : bool -> view * phase -> view * phase -> Prop :=
| vs_same : forall v p, vstep k q false (v, p) (v, p)
| vs_status : forall v p t, vstep k q true (v, p) (mkV (v_kv v) (v_ev v) (v_st v) (v_qu v ++ [AUpdateStatus k t]), p)
| vs_act : forall v p a l, v_qu v = a :: l -> vstep k q false (v, p) (vdispatch v k a l, p)
| vs_event : forall v p e l, v_ev v = e :: l -> vstep k q false (v, p) (mkV (v_kv v) l (vevent (v_st v) e) (v_qu v), p)
| vs_resync : forall v p, vstep k q false (v, p) (mkV (v_kv v) [] (sync_key (v_kv v) (v_st v)) (v_qu v), p)
| vs_relink : forall v p o, v_kv v = Some o ->
    vstep k q true (v, p) (mkV (Some (mkW (w_rev o + 1) (w_spec o) (w_status o)))
                       (v_ev v ++ [EMod k (mkW (w_rev o + 1) (w_spec o) (w_status o))]) (v_st v) (v_qu v), p)
| vs_begin : forall v m, m k = v_st v -> vstep k q false (v, PNew) (v, begin m k q)
| vs_read : forall v a, vstep k q false (v, PRead a) (v, PSend a (option_map w_rev (v_st v)))
| vs_send : forall v a seen, vstep k q false (v, PSend a seen) (mkV (v_kv v) (v_ev v) (v_st v) (v_qu v ++ [a]), PCheck seen 0)
| vs_check : forall v m seen mark, m k = v_st v ->
    vstep k q false (v, PCheck seen mark) (v, if found m k q seen then PDone AnsOk else PWait seen mark)
| vs_wake : forall v seen mark mark', vstep k q false (v, PWait seen mark) (v, PCheck seen mark')
| vs_timeout : forall v seen mark, vstep k q false (v, PWait seen mark) (v, PDone AnsTimeout).

Lemma upd_same : forall A (m : Z -> A) k a, upd m k a k = a.
Proof. intros. unfold upd. rewrite Z.eqb_refl. reflexivity. Qed.
Lemma upd_other : forall A (m : Z -> A) k k' a, k' <> k -> upd m k a k' = m k'.
Proof. intros. unfold upd. destruct (Z.eqb_spec k' k); [contradiction|reflexivity]. Qed.

Lemma store_mod_view : forall st k o k',
  (match store_mod st k o with Some st' => st' | None => st end) k' = if k' =? k then mod1 (st k) o else st k'.
Proof.
  intros. unfold store_mod, mod1. destruct (Z.eqb_spec k' k) as [->|N].
  - destruct (st k) as [c|] eqn:E; [|apply upd_same]. destruct (w_rev o <? w_rev c); [exact E|].
    destruct ((w_rev c =? w_rev o) && (w_spec c =? w_spec o) && (w_status c =? w_status o)) eqn:Q; [|apply upd_same].
    rewrite E. f_equal. apply andb_true_iff in Q as [Q Q3]. apply andb_true_iff in Q as [Q1 Q2].
    apply Z.eqb_eq in Q1, Q2, Q3. destruct c, o; cbn in *; congruence.
  - destruct (st k) as [c|]; [|apply upd_other, N]. destruct (w_rev o <? w_rev c); [reflexivity|].
    destruct (_ && _ && _); [reflexivity|apply upd_other, N].
Qed.

(** The action of a request is about its object. *)
Definition phase_key (k : Z) (p : phase) : Prop :=
  match p with PRead a | PSend a _ => act_key a = k | _ => True end.
(** Who waits has not missed anything. *)
Definition awake (s : waits) (c : call) : Prop :=
  match c_phase c with
  | PCheck _ m => m <= x_epoch s
  | PWait seen m => m <= x_epoch s /\ (found (x_store s) (c_key c) (c_req c) seen = true -> m < x_epoch s)
  | _ => True
  end.
Definition sane_calls (s : waits) : Prop :=
  0 <= x_epoch s /\ forall i c, x_calls s i = Some c -> phase_key (c_key c) (c_phase c) /\ awake s c.

Lemma begin_key : forall st k q, phase_key k (begin st k q).
Proof. intros st k []; cbn; try reflexivity; destruct (st k); cbn; auto. Qed.

Lemma awake_grow : forall s s' c, awake s c -> x_epoch s < x_epoch s' -> awake s' c.
Proof. intros s s' c A H. unfold awake in *. destruct (c_phase c); auto; try lia. Qed.
Lemma awake_same : forall s s' c, awake s c -> x_epoch s = x_epoch s' -> x_store s = x_store s' -> awake s' c.
Proof. intros s s' c A E F. unfold awake in *. rewrite <- E, <- F. exact A. Qed.

(** The calls, the store and the epoch of a step of the dispatcher. *)
Lemma dispatch_frame : forall s a q, x_calls (dispatch s a q) = x_calls s /\ x_queue (dispatch s a q) = q /\
  ((x_epoch (dispatch s a q) = x_epoch s /\ x_store (dispatch s a q) = x_store s) \/ x_epoch (dispatch s a q) = x_epoch s + 1).
Proof.
  intros [kv ev st ep qu cs] a q. unfold dispatch.
  destruct a as [k sp|k t|k]; destruct (st k) as [so|], (kv k) as [ko|];
    try (destruct (kv_put _ _ _) as [o'|]); try (destruct (store_mod _ _ _)); cbn; auto.
Qed.

Lemma sane_step : forall s a s', sane_calls s -> wstep s a = Some s' -> sane_calls s'.
Proof.
  intros s a s' [E0 S] W. destruct a as [i k q|i|i|i|k t| | | |k]; cbn [wstep] in W.
  - destruct (x_calls s i) eqn:C; [discriminate|]. injection W as <-. split; [exact E0|]. intros j c. cbn [x_calls].
    unfold upd. destruct (Z.eqb_spec j i) as [->|N].
    + intros [= <-]. split; exact I.
    + intros H. destruct (S _ _ H) as [A B]. split; [exact A|]. eapply awake_same; [exact B| |]; reflexivity.
  - destruct (x_calls s i) as [c|] eqn:C; [|discriminate]. destruct (S _ _ C) as [PK AW].
    destruct c as [k q p]. cbn [c_phase c_key c_req] in *.
    assert (OTHER : forall p' s'', x_calls s'' = upd (x_calls s) i (Some (mkC k q p')) -> x_epoch s'' = x_epoch s ->
      x_store s'' = x_store s -> phase_key k p' -> awake s (mkC k q p') -> sane_calls s'').
    { intros p' s'' EC EE ES PK' AW'. split; [lia|]. intros j c. rewrite EC. unfold upd. destruct (Z.eqb_spec j i) as [->|N].
      - intros [= <-]. split; [exact PK'|]. eapply awake_same; [exact AW'| |]; auto.
      - intros H. destruct (S _ _ H) as [A B]. split; [exact A|]. eapply awake_same; [exact B| |]; auto. }
    destruct p as [|a|a seen|seen mark|seen mark|r]; try discriminate; injection W as <-.
    + eapply OTHER; try reflexivity; [apply begin_key|]. unfold awake. cbn.
      destruct q as [sp|sp|n|]; cbn; try exact I; destruct (x_store s k); exact I.
    + eapply OTHER; try reflexivity; try exact PK; exact I.
    + eapply OTHER; try reflexivity. unfold awake. cbn. lia.
    + eapply OTHER; try reflexivity; destruct (found (x_store s) k q seen) eqn:F; try exact I.
      unfold awake in *. cbn in *. split; [exact AW|]. rewrite F. discriminate.
  - destruct (x_calls s i) as [c|] eqn:C; [|discriminate]. destruct c as [k q p]. cbn [c_phase] in W.
    destruct p; try discriminate. destruct (mark <? x_epoch s); [|discriminate]. injection W as <-.
    split; [exact E0|]. intros j c. cbn [x_calls set_phase c_key c_req]. unfold upd. destruct (Z.eqb_spec j i) as [->|N].
    + intros [= <-]. split; [exact I|]. unfold awake. cbn. lia.
    + intros H. destruct (S _ _ H) as [A B]. split; [exact A|]. eapply awake_same; [exact B| |]; reflexivity.
  - destruct (x_calls s i) as [c|] eqn:C; [|discriminate]. destruct c as [k q p]. cbn [c_phase] in W.
    destruct p; try discriminate. injection W as <-.
    split; [exact E0|]. intros j c. cbn [x_calls set_phase c_key c_req]. unfold upd. destruct (Z.eqb_spec j i) as [->|N].
    + intros [= <-]. split; exact I.
    + intros H. destruct (S _ _ H) as [A B]. split; [exact A|]. eapply awake_same; [exact B| |]; reflexivity.
  - injection W as <-. split; [exact E0|]. intros j c H. destruct (S _ _ H) as [A B]. split; [exact A|].
    eapply awake_same; [exact B| |]; reflexivity.
  - destruct (x_queue s) as [|a l]; [discriminate|]. injection W as <-.
    destruct (dispatch_frame s a l) as [EC [EQ EE]].
    split; [destruct EE as [[-> _]| ->]; lia|]. intros j c. rewrite EC. intros H. destruct (S _ _ H) as [A B].
    split; [exact A|]. destruct EE as [[E1 E2]|E1]; [eapply awake_same; [exact B| |]; auto|eapply awake_grow; [exact B|lia]].
  - destruct (x_events s) as [|[k o|k] l]; [discriminate| |].
    + destruct (store_mod (x_store s) k o) eqn:M; injection W as <-; split; try (cbn; lia);
        intros j c H; destruct (S _ _ H) as [A B]; (split; [exact A|]).
      * eapply awake_grow; [exact B|cbn; lia].
      * eapply awake_same; [exact B| |]; reflexivity.
    + injection W as <-. split; [cbn; lia|]. intros j c H; destruct (S _ _ H) as [A B]; (split; [exact A|]).
      eapply awake_grow; [exact B|cbn; lia].
  - injection W as <-. split; [cbn; lia|]. intros j c H; destruct (S _ _ H) as [A B]; (split; [exact A|]).
    eapply awake_grow; [exact B|cbn; lia].
  - destruct (x_kv s k) as [o|]; [|discriminate]. destruct (kv_put (x_kv s) k o); [|discriminate]. injection W as <-.
    split; [exact E0|]. intros j c H. destruct (S _ _ H) as [A B]. split; [exact A|].
    eapply awake_same; [exact B| |]; reflexivity.
Qed.
Lemma sane_start : sane_calls no_objects.
Proof. split; [cbn; lia|]. intros i c H. discriminate. Qed.
Lemma sane_runs : forall ok s s', sane_calls s -> wruns ok s s' -> sane_calls s'.
Proof. intros ok s s' H R. induction R; [exact H|]. eapply sane_step; eassumption. Qed.

(** * From the system to one object *)
Definition others_done (s : waits) (i k : Z) : Prop :=
  forall j c, x_calls s j = Some c -> c_key c = k -> j <> i -> done c.

Lemma quk_app : forall k l a, quk k (l ++ [a]) = if act_key a =? k then quk k l ++ [a] else quk k l.
Proof. intros. unfold quk. rewrite filter_app. cbn. destruct (act_key a =? k); [reflexivity|apply app_nil_r]. Qed.
Lemma evk_app : forall k l e, evk k (l ++ [e]) = if event_key e =? k then evk k l ++ [e] else evk k l.
Proof. intros. unfold evk. rewrite filter_app. cbn. destruct (event_key e =? k); [reflexivity|apply app_nil_r]. Qed.

Lemma kv_put_put1 : forall kv k o, kv_put kv k o = put1 (kv k) o.
Proof. reflexivity. Qed.

Lemma quk_cons : forall k l a, quk k (a :: l) = if act_key a =? k then a :: quk k l else quk k l.
Proof. reflexivity. Qed.
Lemma dispatch_view : forall s a q k, x_queue s = a :: q ->
  view_of (dispatch s a q) k = if act_key a =? k then vdispatch (view_of s k) k a (quk k q)
                               else view_of s k.
Proof.
  intros [kv ev st ep qu cs] a q k Q. cbn [x_queue] in Q. subst qu.
  assert (EV : forall k' o, evk k (ev ++ [EMod k' o]) = if k' =? k then evk k ev ++ [EMod k' o] else evk k ev)
    by (intros; apply evk_app).
  assert (ED : forall k', evk k (ev ++ [EDel k']) = if k' =? k then evk k ev ++ [EDel k'] else evk k ev)
    by (intros; apply evk_app).
  unfold dispatch, view_of, vdispatch, vwrite.
  destruct a as [k0 sp|k0 t|k0]; cbn [x_kv x_events x_store x_queue v_kv v_ev v_st v_qu]; rewrite ?quk_cons; cbn [act_key];
  destruct (Z.eqb_spec k0 k) as [->|N].
  - destruct (st k) as [so|] eqn:ES, (kv k) as [ko|] eqn:EK; rewrite ?kv_put_put1, ?EK;
      (destruct (put1 _ _) as [o'|]; cbn [x_kv x_events x_store x_queue]; rewrite ?ES, ?EK, ?upd_same, ?EV, ?Z.eqb_refl; reflexivity).
  - destruct (st k0) as [so|] eqn:ES, (kv k0) as [ko|] eqn:EK; rewrite ?kv_put_put1, ?EK;
      (destruct (put1 _ _) as [o'|]; cbn [x_kv x_events x_store x_queue];
       rewrite ?upd_other by congruence; rewrite ?EV; destruct (Z.eqb_spec k0 k); try contradiction; reflexivity).
  - destruct (st k) as [so|] eqn:ES, (kv k) as [ko|] eqn:EK; rewrite ?kv_put_put1, ?EK;
      cbn [x_kv x_events x_store x_queue]; rewrite ?ES, ?EK; try reflexivity.
    destruct (put1 _ _) as [o'|]; cbn [x_kv x_events x_store x_queue]; rewrite ?ES, ?EK; [|reflexivity].
    pose proof (store_mod_view st k o' k) as M. rewrite Z.eqb_refl, ES in M.
    destruct (store_mod st k o') as [st'|]; cbn [x_kv x_events x_store x_queue]; rewrite upd_same, EV, Z.eqb_refl, M; reflexivity.
  - destruct (st k0) as [so|] eqn:ES, (kv k0) as [ko|] eqn:EK; rewrite ?kv_put_put1, ?EK;
      cbn [x_kv x_events x_store x_queue]; try reflexivity.
    destruct (put1 _ _) as [o'|]; cbn [x_kv x_events x_store x_queue]; [|reflexivity].
    pose proof (store_mod_view st k0 o' k) as M. destruct (Z.eqb_spec k k0) as [X|_]; [congruence|].
    destruct (store_mod st k0 o') as [st'|]; cbn [x_kv x_events x_store x_queue]; rewrite upd_other by congruence;
      rewrite EV; try rewrite M; destruct (Z.eqb_spec k0 k); try contradiction; reflexivity.
  - destruct (st k) as [so|] eqn:ES, (kv k) as [ko|] eqn:EK; cbn [x_kv x_events x_store x_queue];
      rewrite ?upd_same, ?ED, ?ES, ?EK, ?Z.eqb_refl; reflexivity.
  - destruct (st k0) as [so|] eqn:ES, (kv k0) as [ko|] eqn:EK; cbn [x_kv x_events x_store x_queue]; try reflexivity.
    rewrite upd_other by congruence. rewrite ED. destruct (Z.eqb_spec k0 k); try contradiction; reflexivity.
Qed.

Lemma view_step : forall s a s' i k q p,
  sane_calls s -> others_done s i k -> x_calls s i = Some (mkC k q p) -> no_other k a -> wstep s a = Some s' ->
  exists b p', x_calls s' i = Some (mkC k q p') /\ others_done s' i k /\
    vstep k q b (view_of s k, p) (view_of s' k, p') /\ (untouched k a -> b = false).
Proof.
  intros s a s' i k q p [_ SC] OD C NO W. destruct a as [j k1 q1|j|j|j|k1 t| | | |k1]; cbn [wstep] in W.
  - destruct (x_calls s j) eqn:CJ; [discriminate|]. injection W as <-. exists false, p. cbn [x_calls].
    assert (i <> j) by congruence. rewrite upd_other by auto. split; [exact C|]. split; [|split; [apply vs_same|reflexivity]].
    intros j' c. cbn [x_calls]. unfold upd. destruct (Z.eqb_spec j' j); [intros [= <-] K; cbn in K, NO; contradiction|apply OD].
  - destruct (x_calls s j) as [c|] eqn:CJ; [|discriminate]. destruct (Z.eq_dec j i) as [->|N].
    + rewrite C in CJ. injection CJ as <-. cbn [c_phase c_key c_req set_phase] in W.
      assert (OD' : forall p', others_done (set_phase s i (mkC k q p) p') i k).
      { intros p' j' c. cbn [x_calls set_phase]. unfold upd. destruct (Z.eqb_spec j' i); [intros; contradiction|apply OD]. }
      destruct (SC _ _ C) as [PK _]. cbn in PK.
      destruct p as [|a|a seen|seen mark|seen mark|r]; try discriminate; injection W as <-; exists false;
        (eexists; split; [cbn [x_calls set_phase c_key c_req]; apply upd_same|]).
      * split; [apply OD'|]. split; [|reflexivity]. apply (vs_begin k q (view_of s k)). reflexivity.
      * split; [apply OD'|]. split; [|reflexivity]. apply (vs_read k q (view_of s k)).
      * split; [apply (OD' (PCheck seen 0))|]. split; [|reflexivity].
        unfold view_of at 2. cbn [x_kv x_events x_store x_queue]. rewrite quk_app. cbn in PK. rewrite PK, Z.eqb_refl.
        exact (vs_send k q (view_of s k) a seen).
      * split; [apply OD'|]. split; [|reflexivity]. apply (vs_check k q (view_of s k)). reflexivity.
    + exists false, p. destruct (SC _ _ CJ) as [PK _]. destruct c as [kj qj pj]. cbn [c_phase c_key c_req] in *.
      assert (X : x_calls s' i = x_calls s i /\ others_done s' i k /\ view_of s' k = view_of s k).
      { assert (OD' : forall p' s'', x_calls s'' = upd (x_calls s) j (Some (mkC kj qj p')) -> (forall r, pj <> PDone r) -> others_done s'' i k).
        { intros p' s'' EC NP j' c. rewrite EC. unfold upd. destruct (Z.eqb_spec j' j) as [->|]; [|apply OD].
          intros [= <-] K _. cbn in K. subst kj. destruct (OD _ _ CJ eq_refl N) as [r R]. cbn in R. destruct (NP r R). }
        destruct pj as [|a|a seen|seen mark|seen mark|r]; try discriminate; injection W as <-;
          (split; [cbn [x_calls set_phase]; apply upd_other; congruence|]; split; [eapply OD'; [reflexivity|discriminate]|]);
          try reflexivity.
        unfold view_of. cbn [x_kv x_events x_store x_queue]. rewrite quk_app. cbn in PK.
        destruct (Z.eqb_spec (act_key a) k) as [E|]; [|reflexivity].
        assert (E2 : kj = k) by congruence. destruct (OD _ _ CJ E2 N) as [r R]. discriminate R. }
      destruct X as [X1 [X2 X3]]. rewrite X1, X3. repeat split; auto. apply vs_same.
  - destruct (x_calls s j) as [c|] eqn:CJ; [|discriminate]. destruct c as [kj qj pj]. cbn [c_phase] in W.
    destruct pj as [| | | |seen mark|]; try discriminate. destruct (mark <? x_epoch s); [|discriminate]. injection W as <-.
    destruct (Z.eq_dec j i) as [->|N].
    + rewrite C in CJ. injection CJ as <- <- ->. exists false, (PCheck seen (x_epoch s)). cbn [x_calls set_phase c_key c_req]. rewrite upd_same.
      split; [reflexivity|]. split; [|split; [apply vs_wake|reflexivity]].
      intros j' c. cbn [x_calls set_phase]. unfold upd. destruct (Z.eqb_spec j' i); [intros; contradiction|apply OD].
    + exists false, p. cbn [x_calls set_phase]. rewrite upd_other by congruence. split; [exact C|].
      split; [|split; [apply vs_same|reflexivity]].
      intros j' c. cbn [x_calls set_phase c_key c_req]. unfold upd. destruct (Z.eqb_spec j' j) as [->|]; [|apply OD].
      intros [= <-] K _. cbn in K. subst kj. destruct (OD _ _ CJ eq_refl N) as [r R]. discriminate R.
  - destruct (x_calls s j) as [c|] eqn:CJ; [|discriminate]. destruct c as [kj qj pj]. cbn [c_phase] in W.
    destruct pj as [| | | |seen mark|]; try discriminate. injection W as <-.
    destruct (Z.eq_dec j i) as [->|N].
    + rewrite C in CJ. injection CJ as <- <- ->. exists false, (PDone AnsTimeout). cbn [x_calls set_phase c_key c_req]. rewrite upd_same.
      split; [reflexivity|]. split; [|split; [apply vs_timeout|reflexivity]].
      intros j' c. cbn [x_calls set_phase]. unfold upd. destruct (Z.eqb_spec j' i); [intros; contradiction|apply OD].
    + exists false, p. cbn [x_calls set_phase]. rewrite upd_other by congruence. split; [exact C|].
      split; [|split; [apply vs_same|reflexivity]].
      intros j' c. cbn [x_calls set_phase c_key c_req]. unfold upd. destruct (Z.eqb_spec j' j) as [->|]; [|apply OD].
      intros [= <-] K _. cbn in K. subst kj. destruct (OD _ _ CJ eq_refl N) as [r R]. discriminate R.
  - injection W as <-. exists (k1 =? k), p. split; [exact C|]. split; [exact OD|]. split.
    + unfold view_of at 2. cbn [x_kv x_events x_store x_queue]. rewrite quk_app. cbn [act_key].
      destruct (Z.eqb_spec k1 k) as [->|]; [apply (vs_status k q (view_of s k))|apply vs_same].
    + intros [_ U]. destruct (Z.eqb_spec k1 k); [contradiction|reflexivity].
  - destruct (x_queue s) as [|a l] eqn:Q; [discriminate|]. injection W as <-. exists false, p.
    destruct (dispatch_frame s a l) as [EC _]. rewrite EC. split; [exact C|].
    split; [intros j c; rewrite EC; apply OD|]. split; [|reflexivity].
    rewrite dispatch_view by exact Q. destruct (act_key a =? k) eqn:E; [|apply vs_same].
    apply vs_act. unfold view_of. cbn [v_qu]. rewrite Q. cbn. rewrite E. reflexivity.
  - destruct (x_events s) as [|e l] eqn:Q; [discriminate|].
    assert (X : s' = mkX (x_kv s) l (x_store s') (x_epoch s') (x_queue s) (x_calls s) /\
      x_store s' k = if event_key e =? k then vevent (x_store s k) e else x_store s k).
    { destruct e as [k1 o|k1].
      - pose proof (store_mod_view (x_store s) k1 o k) as M.
        destruct (store_mod (x_store s) k1 o); injection W as <-; (split; [reflexivity|]); cbn [x_store event_key vevent];
          rewrite Z.eqb_sym; destruct (Z.eqb_spec k k1) as [->|]; exact M.
      - injection W as <-. split; [reflexivity|]. cbn [x_store event_key vevent]. unfold upd. rewrite Z.eqb_sym. reflexivity. }
    destruct X as [X1 X2]. exists false, p. rewrite X1. cbn [x_calls]. split; [exact C|]. split; [exact OD|]. split; [|reflexivity].
    unfold view_of. cbn [x_kv x_events x_store x_queue]. rewrite X2, Q. cbn [evk filter].
    destruct (event_key e =? k) eqn:E; [|apply vs_same].
    exact (vs_event k q (mkV (x_kv s k) (e :: evk k l) (x_store s k) (quk k (x_queue s))) p e (evk k l) eq_refl).
  - injection W as <-. exists false, p. split; [exact C|]. split; [exact OD|]. split; [|reflexivity].
    exact (vs_resync k q (view_of s k) p).
  - destruct (x_kv s k1) as [o|] eqn:K; [|discriminate]. rewrite kv_put_put1, K in W. unfold put1 in W.
    rewrite Z.ltb_irrefl in W. injection W as <-. exists (k1 =? k), p. split; [exact C|]. split; [exact OD|].
    split; [|intros [_ U]; destruct (Z.eqb_spec k1 k); [contradiction|reflexivity]].
    unfold view_of at 2. cbn [x_kv x_events x_store x_queue]. rewrite evk_app. cbn [event_key].
    destruct (Z.eqb_spec k1 k) as [->|N].
    + rewrite upd_same. apply (vs_relink k q (view_of s k) p o). exact K.
    + rewrite upd_other by congruence. apply vs_same.
Qed.

(** An invariant of one object holds in every run. *)
Lemma view_runs : forall (ok : wait_act -> Prop) i k q (J : view -> phase -> Prop) (calm : bool) s0 s p0,
  (forall a, ok a -> no_other k a /\ (calm = true -> untouched k a)) ->
  (forall b v p v' p', J v p -> vstep k q b (v, p) (v', p') -> (calm = true -> b = false) -> J v' p') ->
  sane_calls s0 -> others_done s0 i k -> x_calls s0 i = Some (mkC k q p0) -> J (view_of s0 k) p0 ->
  wruns ok s0 s -> exists p, x_calls s i = Some (mkC k q p) /\ J (view_of s k) p /\ sane_calls s.
Proof.
  intros ok i k q J calm s0 s p0 OK ST SC OD C J0 R.
  assert (X : exists p, x_calls s i = Some (mkC k q p) /\ J (view_of s k) p /\ sane_calls s /\ others_done s i k).
  { induction R as [|a s1 s2 R IH Oa W].
    - exists p0. auto.
    - destruct IH as [p [C1 [J1 [S1 O1]]]]. destruct (OK a Oa) as [NO UN].
      destruct (view_step _ _ _ _ _ _ _ S1 O1 C1 NO W) as [b [p' [C2 [O2 [V U]]]]].
      exists p'. split; [exact C2|]. split; [|split; [eapply sane_step; eassumption|exact O2]].
      eapply ST; [exact J1|exact V|]. intros CA. apply U, UN, CA. }
  destruct X as [p [X1 [X2 [X3 _]]]]. exists p. auto.
Qed.
