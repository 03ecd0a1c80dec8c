(** Proofs about how a client reaches the leader of a partition. *)
Require Import ZArith List Bool Lia.
Import ListNotations.
From Verif Require Import RouteModel RouteSpec.
Open Scope Z_scope.

(** * Maps *)

Lemma get_del_same : forall A k (m : list (Z * A)), get k (del k m) = None.
Proof.
  intros A k m. induction m as [|[k' a] m IH]; [reflexivity|]. unfold del in *. cbn [filter fst].
  destruct (k =? k') eqn:E; cbn [negb]; [exact IH|]. cbn [get]. now rewrite E.
Qed.
Lemma get_del_other : forall A k k' (m : list (Z * A)), k <> k' -> get k (del k' m) = get k m.
Proof.
  intros A k k' m N. induction m as [|[x a] m IH]; [reflexivity|]. unfold del in *. cbn [filter fst get].
  destruct (k' =? x) eqn:E; cbn [negb].
  - apply Z.eqb_eq in E. subst x. apply Z.eqb_neq in N. rewrite N. exact IH.
  - cbn [get]. destruct (k =? x); [reflexivity | exact IH].
Qed.
Lemma get_put_same : forall A k a (m : list (Z * A)), get k (put k a m) = Some a.
Proof. intros. unfold put. cbn [get]. now rewrite Z.eqb_refl. Qed.
Lemma get_put_other : forall A k k' a (m : list (Z * A)), k <> k' -> get k (put k' a m) = get k m.
Proof. intros A k k' a m N. unfold put. cbn [get]. pose proof N as N2. apply Z.eqb_neq in N2. rewrite N2. now apply get_del_other. Qed.

Lemma look_found : forall A (f : list (Z * A) -> option A) s a, f [] = None ->
  look f s = Found a <-> f (held s) = Some a.
Proof.
  intros A f [m|] a N; unfold look; cbn [held].
  - destruct (f m) as [x|]; split; intro H; try discriminate; now inversion H.
  - rewrite N. split; discriminate.
Qed.
Lemma leader_found : forall w p l, leader_of w p = Found l <-> leads w p l.
Proof. intros. unfold leader_of, leads. now apply look_found. Qed.
Lemma spu_found : forall w l s, look (with_id l) (w_spus w) = Found s <-> with_id l (held (w_spus w)) = Some s.
Proof. intros. now apply look_found. Qed.

Lemma with_id_in : forall l m s, with_id l m = Some s -> exists key, In (key, s) m /\ s_id s = l.
Proof.
  intros l m s. induction m as [|[k x] m IH]; cbn [with_id]; [discriminate|].
  destruct (s_id x =? l) eqn:E.
  - intro H. inversion H; subst x. apply Z.eqb_eq in E. exists k. split; [now left | exact E].
  - intro H. destruct (IH H) as (key & I1 & I2). exists key. split; [now right | exact I2].
Qed.
Lemma address_listed : forall w l s, with_id l (held (w_spus w)) = Some s -> listed w l (address (w_local w) s).
Proof.
  intros w l s H. destruct (with_id_in _ _ _ H) as (key & I1 & I2). exists key, s. split; [exact I1|]. split; [exact I2|].
  unfold address. destruct (s_local s) as [a|] eqn:E.
  - destruct (w_local w) eqn:L; [left; now split | right; split; [now left | reflexivity]].
  - right. split; [now right | reflexivity].
Qed.

(** * Histories *)

Lemma run_snoc : forall es e w, run w (es ++ [e]) = step (run w es) e.
Proof. intros. unfold run. now rewrite fold_left_app. Qed.
Lemma run_app : forall es es' w, run w (es ++ es') = run (run w es) es'.
Proof. intros. unfold run. now rewrite fold_left_app. Qed.
Lemma once_more : forall w0 es e P, once w0 es P -> once w0 (es ++ [e]) P.
Proof. intros w0 es e P (b & a & E & H). exists b, (a ++ [e]). split; [rewrite E; now rewrite app_assoc | exact H]. Qed.
Lemma once_now : forall w0 es (P : world -> Prop), P (run w0 es) -> once w0 es P.
Proof. intros w0 es P H. exists es, []. split; [now rewrite app_nil_r | exact H]. Qed.
Lemma made_more : forall w0 es e l c, made_for w0 es l c -> made_for w0 (es ++ [e]) l c.
Proof. intros w0 es e l c (A & B). split; now apply once_more. Qed.

(** ** What a step of the pool can do *)

(** a call changes the pool, the attempt and the numbers only *)
Definition same_rest (w w' : world) : Prop :=
  w_local w' = w_local w /\ w_watch w' = w_watch w /\ w_parts w' = w_parts w /\ w_spus w' = w_spus w /\
  w_stale w' = w_stale w /\ w_up w' = w_up w.

Lemma same_refl : forall w, same_rest w w.
Proof. repeat split. Qed.
Lemma same_trans : forall a b c, same_rest a b -> same_rest b c -> same_rest a c.
Proof. intros a b c (A1&A2&A3&A4&A5&A6) (B1&B2&B3&B4&B5&B6). repeat split; congruence. Qed.
Lemma begin_same : forall w l, same_rest w (fst (begin_connect w l)).
Proof. intros w l. unfold begin_connect. destruct (look (with_id l) (w_spus w)); repeat split. Qed.
Lemma finish_same : forall w, same_rest w (fst (finish w)).
Proof.
  intros w. unfold finish. destruct (w_trying w) as [a|]; [|apply same_refl].
  cbn [set_trying w_up]. destruct (get (a_addr a) (w_up w)); repeat split.
Qed.
Lemma serial_same : forall w p, same_rest w (fst (serial w p)).
Proof.
  intros w p. unfold serial. destruct (leader_of w p) as [l| |]; try apply same_refl.
  unfold serial_from_leader. destruct (w_trying w); [apply same_refl|].
  destruct (get l (w_pool w)) as [c|]; [|apply begin_same].
  destruct (known_stale w c); [|apply same_refl]. apply (begin_same (set_pool (del l (w_pool w)) w) l).
Qed.
Lemma stream_same : forall w p sent, same_rest w (fst (stream w p sent)).
Proof.
  intros w p sent. unfold stream. destruct (leader_of w p) as [l| |]; try apply same_refl.
  destruct (w_trying w); [apply same_refl|]. destruct (get l (w_pool w)) as [c|]; [apply same_refl | apply begin_same].
Qed.
Lemma whole_same : forall w r, same_rest w (fst r) -> same_rest w (fst (whole r)).
Proof. intros w [w1 a] H. unfold whole. cbn [snd fst]. destruct a; try exact H. eapply same_trans; [exact H | apply finish_same]. Qed.

(** ** The invariant *)

Definition inv (w0 : world) (es : list event) : Prop :=
  let w := run w0 es in
  (forall l c, get l (w_pool w) = Some c -> made_for w0 es l c /\ n_number c < w_next w) /\
  (forall a, w_trying w = Some a -> once w0 es (fun w => listed w (a_leader a) (a_addr a))) /\
  (forall n, In n (w_stale w) -> n < w_next w).

(** the pool grows by what [finish] makes *)
Definition grows (w w' : world) : Prop :=
  (forall l c, get l (w_pool w') = Some c -> get l (w_pool w) = Some c) /\ w_next w' = w_next w.

Lemma grows_refl : forall w, grows w w.
Proof. split; [tauto | reflexivity]. Qed.
Lemma grows_del : forall w l, grows w (set_pool (del l (w_pool w)) w).
Proof.
  intros w l. split; [|reflexivity]. cbn [set_pool w_pool]. intros l' c H. destruct (Z.eq_dec l' l) as [->|N].
  - rewrite get_del_same in H. discriminate.
  - now rewrite get_del_other in H.
Qed.

(** what [begin_connect] starts *)
Lemma begin_trying : forall w l w' r a, begin_connect w l = (w', r) -> w_trying w' = Some a ->
  w_trying w = Some a \/ (a_leader a = l /\ listed w l (a_addr a) /\ r = Connecting).
Proof.
  intros w l w' r a H T. unfold begin_connect in H. destruct (look (with_id l) (w_spus w)) as [s| |] eqn:E.
  - injection H as E1 E2. subst w' r. cbn [set_trying w_trying] in T. inversion T; subst a. right. cbn.
    split; [reflexivity|]. split; [|reflexivity]. apply spu_found in E. now apply address_listed.
  - injection H as E1 E2. subst w' r. now left.
  - injection H as E1 E2. subst w' r. now left.
Qed.
Lemma begin_pool : forall w l, w_pool (fst (begin_connect w l)) = w_pool w /\ w_next (fst (begin_connect w l)) = w_next w.
Proof. intros w l. unfold begin_connect. destruct (look (with_id l) (w_spus w)); split; reflexivity. Qed.
Lemma begin_not_given : forall w l c, snd (begin_connect w l) <> Given c.
Proof. intros w l c. unfold begin_connect. destruct (look (with_id l) (w_spus w)); discriminate. Qed.
Lemma listed_same : forall w w' l a, same_rest w w' -> listed w' l a -> listed w l a.
Proof. intros w w' l a (S1 & S2 & S3 & S4 & S5 & S6) (k & s & I1 & I2 & I3). exists k, s. rewrite S4 in I1. rewrite S1 in I3. now split. Qed.

Lemma serial_call : forall w p,
  grows w (fst (serial w p)) /\
  (forall a, w_trying (fst (serial w p)) = Some a ->
     w_trying w = Some a \/ (leads w p (a_leader a) /\ listed w (a_leader a) (a_addr a))) /\
  (forall c, snd (serial w p) = Given c -> exists l, leads w p l /\ get l (w_pool w) = Some c /\ known_stale w c = false /\ fst (serial w p) = w).
Proof.
  intros w p. unfold serial. destruct (leader_of w p) as [l| |] eqn:L.
  2,3: cbn [fst snd]; split; [apply grows_refl|]; split; [now left | discriminate].
  apply leader_found in L. unfold serial_from_leader. destruct (w_trying w) as [t|] eqn:T.
  { cbn [fst snd]. split; [apply grows_refl|]. split; [|discriminate]. intros a H. left. congruence. }
  assert (B : forall w1, same_rest w w1 -> grows w w1 -> w_trying w1 = None ->
     grows w (fst (begin_connect w1 l)) /\
     (forall a, w_trying (fst (begin_connect w1 l)) = Some a -> None = Some a \/ (leads w p (a_leader a) /\ listed w (a_leader a) (a_addr a))) /\
     (forall c, snd (begin_connect w1 l) = Given c -> exists l0, leads w p l0 /\ get l0 (w_pool w) = Some c /\ known_stale w c = false /\ fst (begin_connect w1 l) = w)).
  { intros w1 S G N. destruct (begin_pool w1 l) as [P1 P2]. destruct G as [G1 G2]. split; [|split].
    - split; [intros l' c H; rewrite P1 in H; now apply G1 | congruence].
    - intros a H. destruct (begin_trying w1 l _ _ a (surjective_pairing _) H) as [X | (X1 & X2 & _)]; [congruence|].
      right. rewrite X1. split; [exact L | eapply listed_same; [exact S | exact X2]].
    - intros c H. exfalso. eapply begin_not_given, H. }
  destruct (get l (w_pool w)) as [c|] eqn:G.
  - destruct (known_stale w c) eqn:K.
    + apply B; [repeat split | apply grows_del | exact T].
    + cbn [fst snd]. split; [apply grows_refl|]. split; [intros a H; left; congruence|].
      intros c' H. inversion H; subst c'. exists l. now repeat split.
  - apply B; [apply same_refl | apply grows_refl | exact T].
Qed.

Lemma stream_call : forall w p sent,
  grows w (fst (stream w p sent)) /\
  (forall a, w_trying (fst (stream w p sent)) = Some a ->
     w_trying w = Some a \/ (leads w p (a_leader a) /\ listed w (a_leader a) (a_addr a))) /\
  (forall c, snd (stream w p sent) = Given c -> exists l, leads w p l /\ get l (w_pool w) = Some c).
Proof.
  intros w p sent. unfold stream. destruct (leader_of w p) as [l| |] eqn:L.
  2,3: cbn [fst snd]; split; [apply grows_refl|]; split; [now left | discriminate].
  apply leader_found in L. destruct (w_trying w) as [t|] eqn:T.
  { cbn [fst snd]. split; [apply grows_refl|]. split; [|discriminate]. intros a H. left. congruence. }
  destruct (get l (w_pool w)) as [c|] eqn:G.
  - cbn [fst snd]. split; [apply grows_refl|]. split; [intros a H; left; congruence|].
    intros c' H. destruct (alive w c || sent); [|discriminate]. inversion H; subst c'. exists l. now split.
  - destruct (begin_pool w l) as [P1 P2]. split; [|split].
    + split; [intros l' c H; now rewrite P1 in H | congruence].
    + intros a H. destruct (begin_trying w l _ _ a (surjective_pairing _) H) as [X | (X1 & X2 & _)]; [congruence|].
      right. rewrite X1. now split.
    + intros c H. exfalso. eapply begin_not_given, H.
Qed.

(** what [finish] gives *)
Lemma finish_call : forall w,
  (fst (finish w) = set_trying None w \/ fst (finish w) = w) /\ (forall c, snd (finish w) <> Given c) \/
  exists a s, w_trying w = Some a /\ get (a_addr a) (w_up w) = Some s /\
    let c := mkConn (w_next w) (a_addr a) s in
    snd (finish w) = Given c /\ w_pool (fst (finish w)) = put (a_leader a) c (w_pool w) /\
    w_trying (fst (finish w)) = None /\ w_next (fst (finish w)) = w_next w + 1.
Proof.
  intros w. unfold finish. destruct (w_trying w) as [a|] eqn:T.
  - cbn [set_trying w_up]. destruct (get (a_addr a) (w_up w)) as [s|] eqn:G.
    + right. exists a, s. now repeat split.
    + left. cbn [fst snd]. split; [now left | discriminate].
  - left. cbn [fst snd]. split; [now right | discriminate].
Qed.

Lemma inv_start : forall loc u, inv (start loc u) [].
Proof. intros. unfold inv, start, run. cbn. repeat split; try discriminate; contradiction. Qed.

(** a step that leaves the pool, the attempt and the numbers *)
Lemma inv_quiet : forall w0 es e, inv w0 es ->
  w_pool (step (run w0 es) e) = w_pool (run w0 es) -> w_trying (step (run w0 es) e) = w_trying (run w0 es) ->
  w_next (step (run w0 es) e) = w_next (run w0 es) ->
  (forall n, In n (w_stale (step (run w0 es) e)) -> In n (w_stale (run w0 es)) \/ n < w_next (run w0 es)) ->
  inv w0 (es ++ [e]).
Proof.
  intros w0 es e (I1 & I2 & I3) P T N S. unfold inv. rewrite run_snoc. split; [|split].
  - intros l c H. rewrite P in H. rewrite N. destruct (I1 _ _ H) as [A B]. split; [now apply made_more | exact B].
  - intros a H. rewrite T in H. apply once_more. now apply I2.
  - intros n H. rewrite N. destruct (S n H) as [A | A]; [now apply I3 | exact A].
Qed.

(** a step of a call that gives what is in the pool or begins to connect *)
Lemma inv_call : forall w0 es e, inv w0 es -> same_rest (run w0 es) (step (run w0 es) e) ->
  grows (run w0 es) (step (run w0 es) e) ->
  (forall a, w_trying (step (run w0 es) e) = Some a ->
     w_trying (run w0 es) = Some a \/ listed (run w0 es) (a_leader a) (a_addr a)) -> inv w0 (es ++ [e]).
Proof.
  intros w0 es e (I1 & I2 & I3) (S1 & S2 & S3 & S4 & S5 & S6) (G1 & G2) T. unfold inv. rewrite run_snoc. split; [|split].
  - intros l c H. rewrite G2. destruct (I1 _ _ (G1 _ _ H)) as [A B]. split; [now apply made_more | exact B].
  - intros a H. apply once_more. destruct (T a H) as [A | A]; [now apply I2 | now apply once_now].
  - intros n H. rewrite G2. rewrite S5 in H. now apply I3.
Qed.

Lemma inv_step : forall w0 es e, inv w0 es -> inv w0 (es ++ [e]).
Proof.
  intros w0 es e V. destruct e as [l|l|l|l| |a|a s|c|c|p|p sent|].
  1-4: apply inv_quiet; [exact V | | | |]; cbn [step]; destruct (w_watch (run w0 es)); try reflexivity; now left.
  1-3: apply inv_quiet; [exact V | reflexivity | reflexivity | reflexivity | now left].
  - apply inv_quiet; [exact V | | | |]; cbn [step]; destruct (alive (run w0 es) c || (w_next (run w0 es) <=? n_number c)) eqn:E; try reflexivity; try now left.
    cbn [set_stale w_stale]. intros n [<- | H]; [right | now left]. apply orb_false_iff in E. destruct E as [_ E]. apply Z.leb_gt in E. lia.
  - apply inv_quiet; [exact V | | | |]; cbn [step]; destruct (w_next (run w0 es) <=? n_number c) eqn:E; try reflexivity; try now left.
    cbn [set_stale w_stale]. intros n [<- | H]; [right | now left]. apply Z.leb_gt in E. lia.
  - destruct (serial_call (run w0 es) p) as (G & T & _). apply inv_call; [exact V | apply serial_same | exact G |].
    intros a H. destruct (T a H) as [A | (_ & A)]; tauto.
  - destruct (stream_call (run w0 es) p sent) as (G & T & _). apply inv_call; [exact V | apply stream_same | exact G |].
    intros a H. destruct (T a H) as [A | (_ & A)]; tauto.
  - destruct (finish_call (run w0 es)) as [([E|E] & _) | (a & s & T & U & _ & P & T' & N)].
    + apply inv_call; [exact V | apply finish_same | |]; cbn [step]; rewrite E; [split; [intros l c H; exact H | reflexivity] | intros a H; discriminate].
    + apply inv_call; [exact V | apply finish_same | |]; cbn [step]; rewrite E; [apply grows_refl | tauto].
    + destruct V as (I1 & I2 & I3). unfold inv. rewrite run_snoc. cbn [step]. rewrite P, T', N. split; [|split].
      * intros l c H. destruct (Z.eq_dec l (a_leader a)) as [-> | Nl].
        -- rewrite get_put_same in H. inversion H; subst c. cbn [n_number]. split; [|lia].
           split; apply once_more; cbn [n_addr n_server]; [now apply I2 | now apply once_now].
        -- rewrite get_put_other in H by exact Nl. destruct (I1 _ _ H). split; [now apply made_more | lia].
      * discriminate.
      * destruct (finish_same (run w0 es)) as (_ & _ & _ & _ & S & _). rewrite S. intros n H. pose proof (I3 n H). lia.
Qed.

Lemma inv_run : forall loc u es, inv (start loc u) es.
Proof. intros loc u es. induction es as [|e es IH] using rev_ind; [apply inv_start | now apply inv_step]. Qed.

(** ** Where requests go *)

Lemma known_stale_in : forall w c, known_stale w c = true <-> In (n_number c) (w_stale w).
Proof.
  intros w c. unfold known_stale. rewrite existsb_exists. split.
  - intros (n & H & E). apply Z.eqb_eq in E. now rewrite E.
  - intro H. exists (n_number c). split; [exact H | apply Z.eqb_refl].
Qed.

(** [whole] of a call that begins with no attempt under way *)
Lemma finish_given : forall w c, snd (finish w) = Given c -> exists a s, w_trying w = Some a /\ get (a_addr a) (w_up w) = Some s /\
  c = mkConn (w_next w) (a_addr a) s /\ get (a_leader a) (w_pool (fst (finish w))) = Some c.
Proof.
  intros w c H. destruct (finish_call w) as [(_ & N) | (a & s & T & U & G & P & _ & _)]; [exfalso; eapply N, H|].
  exists a, s. rewrite H in G. inversion G; subst c. repeat split; try assumption. rewrite P. apply get_put_same.
Qed.

Lemma serial_connecting : forall w p, snd (serial w p) = Connecting -> w_trying w = None /\
  exists l s, leads w p l /\ with_id l (held (w_spus w)) = Some s /\ no_connection w l /\
    w_trying (fst (serial w p)) = Some (mkAttempt l (address (w_local w) s)) /\ w_next (fst (serial w p)) = w_next w.
Proof.
  intros w p. unfold serial. destruct (leader_of w p) as [l| |] eqn:L; try discriminate. apply leader_found in L.
  unfold serial_from_leader. destruct (w_trying w) as [t|] eqn:T; [discriminate|].
  assert (B : forall w1, w_spus w1 = w_spus w -> w_local w1 = w_local w -> w_next w1 = w_next w -> no_connection w l ->
    snd (begin_connect w1 l) = Connecting -> @None attempt = None /\ exists l0 s, leads w p l0 /\ with_id l0 (held (w_spus w)) = Some s /\ no_connection w l0 /\
      w_trying (fst (begin_connect w1 l)) = Some (mkAttempt l0 (address (w_local w) s)) /\ w_next (fst (begin_connect w1 l)) = w_next w).
  { intros w1 E1 E2 E3 NC. unfold begin_connect. rewrite E1, E2. destruct (look (with_id l) (w_spus w)) as [s| |] eqn:F; try discriminate.
    intros _. split; [reflexivity|]. exists l, s. apply spu_found in F. repeat split; try assumption. }
  destruct (get l (w_pool w)) as [c|] eqn:G.
  - destruct (known_stale w c) eqn:K; [|discriminate]. apply B; try reflexivity. intros c' H. congruence.
  - apply B; try reflexivity. intros c' H. congruence.
Qed.

Lemma stream_connecting : forall w p sent, snd (stream w p sent) = Connecting -> w_trying w = None /\
  exists l s, leads w p l /\ with_id l (held (w_spus w)) = Some s /\ get l (w_pool w) = None /\
    w_trying (fst (stream w p sent)) = Some (mkAttempt l (address (w_local w) s)) /\ w_next (fst (stream w p sent)) = w_next w.
Proof.
  intros w p sent. unfold stream. destruct (leader_of w p) as [l| |] eqn:L; try discriminate. apply leader_found in L.
  destruct (w_trying w) as [t|] eqn:T; [discriminate|].
  destruct (get l (w_pool w)) as [c|] eqn:G; [destruct (alive w c || sent); discriminate|].
  unfold begin_connect. destruct (look (with_id l) (w_spus w)) as [s| |] eqn:F; try discriminate.
  intros _. split; [reflexivity|]. exists l, s. apply spu_found in F. now repeat split.
Qed.

Lemma serial_routed : forall loc u es p c, let w := run (start loc u) es in
  snd (whole (serial w p)) = Given c -> exists l, leads w p l /\ made_for (start loc u) es l c.
Proof.
  intros loc u es p c w H. destruct (inv_run loc u es) as (I1 & I2 & I3). fold w in I1, I2, I3.
  unfold whole in H. destruct (snd (serial w p)) as [c'|e| |] eqn:S.
  - rewrite S in H. inversion H; subst c'. destruct (serial_call w p) as (_ & _ & G). destruct (G c S) as (l & L & P & _ & _).
    exists l. split; [exact L | now apply I1].
  - rewrite S in H. discriminate.
  - destruct (serial_connecting w p S) as (_ & l & s & L & F & _ & T & N). exists l. split; [exact L|].
    destruct (finish_given _ _ H) as (a & srv & T2 & U & E & _). rewrite T in T2. inversion T2; subst a.
    rewrite E. destruct (serial_same w p) as (_ & _ & _ & _ & _ & SU). rewrite SU in U. cbn [a_addr] in *.
    split; apply once_now; fold w; cbn [n_addr n_server]; [now apply address_listed | exact U].
  - rewrite S in H. discriminate.
Qed.

Lemma stream_routed : forall loc u es p sent c, let w := run (start loc u) es in
  snd (whole (stream w p sent)) = Given c -> exists l, leads w p l /\ made_for (start loc u) es l c.
Proof.
  intros loc u es p sent c w H. destruct (inv_run loc u es) as (I1 & I2 & I3). fold w in I1, I2, I3.
  unfold whole in H. destruct (snd (stream w p sent)) as [c'|e| |] eqn:S.
  - rewrite S in H. inversion H; subst c'. destruct (stream_call w p sent) as (_ & _ & G). destruct (G c S) as (l & L & P).
    exists l. split; [exact L | now apply I1].
  - rewrite S in H. discriminate.
  - destruct (stream_connecting w p sent S) as (_ & l & s & L & F & _ & T & N). exists l. split; [exact L|].
    destruct (finish_given _ _ H) as (a & srv & T2 & U & E & _). rewrite T in T2. inversion T2; subst a.
    rewrite E. destruct (stream_same w p sent) as (_ & _ & _ & _ & _ & SU). rewrite SU in U. cbn [a_addr] in *.
    split; apply once_now; fold w; cbn [n_addr n_server]; [now apply address_listed | exact U].
  - rewrite S in H. discriminate.
Qed.
