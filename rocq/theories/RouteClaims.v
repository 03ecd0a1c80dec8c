(** The claims about how a client reaches the leader of a partition. *)
Require Import ZArith List Bool Lia.
Import ListNotations.
From Verif Require Import RouteModel RouteSpec RouteProofs.
Open Scope Z_scope.

(** * Connections that are given *)

Lemma stale_below : forall loc u es, let w := run (start loc u) es in
  known_stale w (mkConn (w_next w) 0 0) = false.
Proof.
  intros loc u es w. destruct (inv_run loc u es) as (_ & _ & I3). fold w in I3.
  destruct (known_stale w (mkConn (w_next w) 0 0)) eqn:K; [|reflexivity].
  apply known_stale_in in K. cbn [n_number] in K. pose proof (I3 _ K). lia.
Qed.

Lemma serial_fresh : forall loc u es p w' c, whole (serial (run (start loc u) es) p) = (w', Given c) ->
  known_stale w' c = false.
Proof.
  intros loc u es p w' c H. pose proof (stale_below loc u es) as B. set (w := run (start loc u) es) in *. cbv zeta in B.
  unfold whole in H. destruct (snd (serial w p)) as [c'|e| |] eqn:S.
  - destruct (serial_call w p) as (_ & _ & G). destruct (serial w p) as [w1 r]. cbn [fst snd] in *. subst r. injection H as E1 E2.
    subst c' w1. destruct (G c eq_refl) as (l & _ & _ & K & E). now rewrite E.
  - destruct (serial w p) as [w1 r]. cbn [snd] in S. subst r. discriminate.
  - destruct (serial_connecting w p S) as (_ & l & s & L & F & _ & T & N).
    assert (H2 : snd (finish (fst (serial w p))) = Given c) by now rewrite H.
    destruct (finish_given _ _ H2) as (a & srv & _ & _ & E & _).
    destruct (finish_same (fst (serial w p))) as (_ & _ & _ & _ & S5 & _). rewrite H in S5. cbn [fst] in S5.
    destruct (serial_same w p) as (_ & _ & _ & _ & S5' & _).
    unfold known_stale in *. rewrite S5, S5', E, N. exact B.
  - destruct (serial w p) as [w1 r]. cbn [snd] in S. subst r. discriminate.
Qed.

(** ** A connection stays the one for its SPU *)

Lemma finish_keeps : forall w l c, (forall a, w_trying w = Some a -> a_leader a <> l) -> get l (w_pool w) = Some c ->
  get l (w_pool (fst (finish w))) = Some c.
Proof.
  intros w l c N H. destruct (finish_call w) as [([E|E] & _) | (a & s & T & _ & _ & P & _ & _)].
  - now rewrite E.
  - now rewrite E.
  - rewrite P, get_put_other; [exact H|]. intro X. now apply (N a T).
Qed.

(** nobody connects to an SPU that has a connection not known to have ended *)
Definition kept (l : Z) (c : conn) (w : world) : Prop :=
  get l (w_pool w) = Some c /\ (forall a, w_trying w = Some a -> a_leader a <> l).

Lemma begin_kept : forall w l l' c, l' <> l -> kept l c w -> kept l c (fst (begin_connect w l')).
Proof.
  intros w l l' c N (K1 & K2). destruct (begin_pool w l') as [P _]. split; [now rewrite P|].
  intros a H. destruct (begin_trying w l' _ _ a (surjective_pairing _) H) as [X | (X & _)]; [now apply K2 | congruence].
Qed.

Lemma kept_step : forall l c w e, kept l c w -> known_stale w c = false -> kept l c (step w e).
Proof.
  intros l c w e K F. pose proof K as (K1 & K2).
  destruct e as [x|x|x|x| |x|x s|x|x|p|p sent|]; cbn [step].
  1-4: destruct (w_watch w); exact K.
  1-3: exact K.
  - destruct (alive w x || (w_next w <=? n_number x)); exact K.
  - destruct (w_next w <=? n_number x); exact K.
  - unfold serial. destruct (leader_of w p) as [l'| |]; try exact K. unfold serial_from_leader.
    destruct (w_trying w) as [t|] eqn:T; [exact K|].
    destruct (get l' (w_pool w)) as [c'|] eqn:G.
    + destruct (known_stale w c') eqn:KS; [|exact K]. assert (N : l' <> l) by (intro; subst l'; congruence).
      apply begin_kept; [exact N|]. split; cbn [set_pool w_pool w_trying]; [rewrite get_del_other; [exact K1 | now apply not_eq_sym] | rewrite T; discriminate].
    + apply begin_kept; [intro; subst l'; congruence | exact K].
  - unfold stream. destruct (leader_of w p) as [l'| |]; try exact K.
    destruct (w_trying w) as [t|] eqn:T; [exact K|].
    destruct (get l' (w_pool w)) as [c'|] eqn:G; [exact K|].
    apply begin_kept; [intro; subst l'; congruence | exact K].
  - split; [now apply finish_keeps|]. intros a H. destruct (finish_call w) as [([E|E] & _) | (a' & s & _ & _ & _ & _ & T & _)].
    + rewrite E in H. discriminate.
    + rewrite E in H. now apply K2.
    + rewrite T in H. discriminate.
Qed.

Lemma stale_stays : forall w e n, In n (w_stale w) -> In n (w_stale (step w e)).
Proof.
  intros w e n H. destruct e as [x|x|x|x| |x|x s|x|x|p|p sent|]; cbn [step].
  1-4: destruct (w_watch w); exact H.
  1-3: exact H.
  - destruct (alive w x || (w_next w <=? n_number x)); [exact H | now right].
  - destruct (w_next w <=? n_number x); [exact H | now right].
  - destruct (serial_same w p) as (_ & _ & _ & _ & S & _). now rewrite S.
  - destruct (stream_same w p sent) as (_ & _ & _ & _ & S & _). now rewrite S.
  - destruct (finish_same w) as (_ & _ & _ & _ & S & _). now rewrite S.
Qed.
Lemma stale_run : forall es w n, In n (w_stale w) -> In n (w_stale (run w es)).
Proof. induction es as [|e es IH]; intros w n H; [exact H|]. cbn [run fold_left]. apply (IH (step w e)). now apply stale_stays. Qed.

Lemma kept_run : forall es l c w, kept l c w -> known_stale (run w es) c = false -> kept l c (run w es).
Proof.
  induction es as [|e es IH]; intros l c w K F; [exact K|]. cbn [run fold_left] in *. apply (IH l c (step w e)); [|exact F].
  apply kept_step; [exact K|]. destruct (known_stale w c) eqn:X; [|reflexivity].
  apply known_stale_in in X. apply (stale_stays w e), (stale_run es) in X. apply known_stale_in in X. unfold run in X. congruence.
Qed.

Lemma given_kept : forall w p l w' c, leads w p l -> whole (serial w p) = (w', Given c) -> kept l c w'.
Proof.
  intros w p l w' c L H. unfold whole in H. destruct (snd (serial w p)) as [c'|e| |] eqn:S.
  - destruct (serial_call w p) as (_ & _ & G). destruct (G c' S) as (l' & L' & P & _ & E).
    destruct (serial w p) as [w1 r] eqn:SE. cbn [fst snd] in *. subst r w1. injection H as E1 E2. subst w' c'.
    unfold leads in *. assert (l' = l) by congruence. subst l'. split; [exact P|].
    intros a T. exfalso. unfold serial in SE. assert (LF : leader_of w p = Found l) by now apply leader_found.
    rewrite LF in SE. unfold serial_from_leader in SE. rewrite T in SE. discriminate.
  - destruct (serial w p) as [w1 r]. cbn [snd] in S. subst r. discriminate.
  - destruct (serial_connecting w p S) as (_ & l' & s & L' & F & _ & T & N).
    unfold leads in *. assert (l' = l) by congruence. subst l'.
    assert (H2 : snd (finish (fst (serial w p))) = Given c) by now rewrite H.
    destruct (finish_given _ _ H2) as (a & srv & T2 & _ & _ & P). rewrite H in P. cbn [fst] in P.
    rewrite T in T2. inversion T2; subst a. cbn [a_leader] in P. split; [exact P|].
    destruct (finish_call (fst (serial w p))) as [(_ & NG) | (a & s' & _ & _ & _ & _ & T' & _)]; [exfalso; eapply NG, H2|].
    rewrite H in T'. cbn [fst] in T'. rewrite T'. discriminate.
  - destruct (serial w p) as [w1 r]. cbn [snd] in S. subst r. discriminate.
Qed.

(** one connection for each SPU: as long as it is not known to have ended it is
    given for every partition the SPU leads *)
Lemma serial_shared : forall w p l w1 c es q, leads w p l -> whole (serial w p) = (w1, Given c) ->
  let w2 := run w1 es in leads w2 q l -> known_stale w2 c = false -> w_trying w2 = None ->
  serial w2 q = (w2, Given c).
Proof.
  intros w p l w1 c es q L H w2 L2 K T. pose proof (given_kept _ _ _ _ _ L H) as G.
  destruct (kept_run es _ _ _ G K) as (P & _). fold w2 in P. unfold serial.
  apply leader_found in L2. rewrite L2. unfold serial_from_leader. rewrite T, P, K. reflexivity.
Qed.

(** ** Reconnecting *)

Lemma begin_up : forall w p l a srv, up w p l a srv -> begin_connect w l = (set_trying (Some (mkAttempt l a)) w, Connecting).
Proof.
  intros w p l a srv (_ & (s & F & A) & _ & _). unfold begin_connect. apply spu_found in F. rewrite F. now rewrite A.
Qed.

Definition joined (w : world) (l a srv : Z) : world :=
  let c := mkConn (w_next w) a srv in set_next (w_next w + 1) (set_pool (put l c (w_pool w)) (set_trying None w)).

Lemma finish_up : forall w l a srv, get a (w_up w) = Some srv ->
  finish (set_trying (Some (mkAttempt l a)) w) = (joined w l a srv, Given (mkConn (w_next w) a srv)).
Proof. intros w l a srv U. unfold finish. cbn [w_trying set_trying w_up a_addr]. rewrite U. reflexivity. Qed.

(** the world in which the attempt begins *)
Lemma serial_up : forall w p l a srv, up w p l a srv -> no_connection w l ->
  exists w1, (w1 = w \/ w1 = set_pool (del l (w_pool w)) w) /\
    whole (serial w p) = (joined w1 l a srv, Given (mkConn (w_next w) a srv)).
Proof.
  intros w p l a srv U NC. pose proof U as (L & (s & F & A) & G & T). unfold serial.
  assert (LF : leader_of w p = Found l) by now apply leader_found. rewrite LF. unfold serial_from_leader. rewrite T.
  destruct (get l (w_pool w)) as [c|] eqn:P.
  - rewrite (NC c P). exists (set_pool (del l (w_pool w)) w). split; [now right|].
    rewrite (begin_up (set_pool (del l (w_pool w)) w) p l a srv) by (split; [exact L | split; [now exists s | now split]]).
    unfold whole. cbn [snd fst]. now rewrite (finish_up _ l a srv) by exact G.
  - exists w. split; [now left|]. rewrite (begin_up w p l a srv U). unfold whole. cbn [snd fst]. now rewrite (finish_up _ l a srv) by exact G.
Qed.

Lemma serial_reconnects : forall w p l a srv, up w p l a srv -> no_connection w l ->
  exists w' c, whole (serial w p) = (w', Given c) /\ n_addr c = a /\ n_server c = srv /\ alive w' c = true.
Proof.
  intros w p l a srv U NC. destruct (serial_up _ _ _ _ _ U NC) as (w1 & E1 & E). exists (joined w1 l a srv), (mkConn (w_next w) a srv).
  split; [exact E|]. split; [reflexivity|]. split; [reflexivity|].
  destruct U as (_ & _ & G & _). unfold alive. destruct E1 as [-> | ->]; cbn [joined set_next set_pool set_trying w_up n_addr n_server];
    rewrite G; apply Z.eqb_refl.
Qed.

(** ** Consumers *)

Lemma stream_live : forall w p l c sent, leads w p l -> kept l c w -> w_trying w = None -> alive w c = true ->
  whole (stream w p sent) = (w, Given c).
Proof.
  intros w p l c sent L (P & _) T A. unfold stream. apply leader_found in L. rewrite L, T, P, A. reflexivity.
Qed.

Lemma serial_usable : forall w p l a srv, up w p l a srv -> (no_connection w l \/ connected w l) ->
  exists w' c, whole (serial w p) = (w', Given c) /\ alive w' c = true /\ kept l c w' /\ leads w' p l /\ w_trying w' = None.
Proof.
  intros w p l a srv U H.
  assert (NCase : no_connection w l -> exists w' c, whole (serial w p) = (w', Given c) /\ alive w' c = true /\ kept l c w' /\ leads w' p l /\ w_trying w' = None).
  { intros NC. destruct (serial_reconnects _ _ _ _ _ U NC) as (w' & c & E & _ & _ & A). exists w', c.
    destruct (serial_up _ _ _ _ _ U NC) as (w1 & E1 & E'). destruct U as (L & _ & _ & T).
    repeat split; try assumption.
    - now destruct (given_kept _ _ _ _ _ L E).
    - now destruct (given_kept _ _ _ _ _ L E).
    - rewrite E in E'. injection E' as -> _. unfold leads. destruct E1 as [-> | ->]; exact L.
    - rewrite E in E'. injection E' as -> _. destruct E1 as [-> | ->]; reflexivity. }
  destruct H as [NC | (c & P & A)]; [now apply NCase|].
  destruct (known_stale w c) eqn:K; [apply NCase; intros c' P'; congruence|].
  pose proof U as (L & _ & _ & T). exists w, c. unfold serial.
  assert (LF : leader_of w p = Found l) by now apply leader_found. rewrite LF. unfold serial_from_leader. rewrite T, P, K.
  repeat split; try assumption. rewrite T. discriminate.
Qed.

Lemma consumer_opens : forall w p l a srv sent, up w p l a srv -> (no_connection w l \/ connected w l) ->
  exists w' c, open_consumer w p [] sent = (w', Given c) /\ alive w' c = true.
Proof.
  intros w p l a srv sent U H. destruct (serial_usable _ _ _ _ _ U H) as (w' & c & E & A & K & L & T).
  exists w', c. unfold open_consumer. rewrite E, A. cbn [run fold_left]. now rewrite (stream_live w' p l c sent).
Qed.

(** an end that was not noticed fails one opening *)
Lemma consumer_second : forall w p l a srv sent, up w p l a srv -> silent w l ->
  exists w1 w' c, open_consumer w p [] sent = (w1, Failed SendFailed) /\
    open_consumer w1 p [] sent = (w', Given c) /\ alive w' c = true.
Proof.
  intros w p l a srv sent U (c & P & A & K). pose proof U as (L & S & G & T).
  set (w1 := set_stale (n_number c :: w_stale w) w).
  assert (E : open_consumer w p [] sent = (w1, Failed SendFailed)).
  { unfold open_consumer, serial. assert (LF : leader_of w p = Found l) by now apply leader_found.
    rewrite LF. unfold serial_from_leader. rewrite T, P, K. unfold whole. cbn [snd]. rewrite A. reflexivity. }
  exists w1. assert (U1 : up w1 p l a srv) by (split; [exact L | split; [exact S | now split]]).
  destruct (consumer_opens w1 p l a srv sent U1) as (w' & c' & E' & A').
  - left. intros c' P'. cbn [w1 set_stale w_pool] in P'. assert (c' = c) by congruence. subst c'.
    unfold known_stale. cbn [w1 set_stale w_stale existsb]. now rewrite Z.eqb_refl.
  - exists w', c'. now repeat split.
Qed.

(** only the stream, on a connection in the pool that has ended *)
Lemma stream_stuck : forall n w p l c, leads w p l -> get l (w_pool w) = Some c -> w_trying w = None -> alive w c = false ->
  forall sents, length sents = n -> run w (map (Stream p) sents) = w /\
  forall sent, stream w p sent = (w, if sent then Given c else Failed SendFailed).
Proof.
  intros n w p l c L P T A. assert (S : forall sent, stream w p sent = (w, if sent then Given c else Failed SendFailed)).
  { intros sent. unfold stream. pose proof L as L'. apply leader_found in L'. rewrite L', T, P, A. reflexivity. }
  induction n as [|n IH]; intros sents E; destruct sents as [|b sents]; try discriminate; (split; [|exact S]); [reflexivity|].
  cbn [map run fold_left step]. rewrite S. cbn [fst]. apply (IH sents). now inversion E.
Qed.

(** * What the client knows *)

Lemma follows : forall w p l, w_watch w = true -> leads (step w (ChangeParts [Mod p l])) p l.
Proof. intros w p l W. cbn [step]. rewrite W. unfold leads. cbn. apply get_put_same. Qed.

Lemma frozen : forall es w, w_watch w = false -> w_watch (run w es) = false /\ w_parts (run w es) = w_parts w /\ w_spus (run w es) = w_spus w.
Proof.
  induction es as [|e es IH]; intros w W; [now repeat split|]. cbn [run fold_left].
  assert (S : w_watch (step w e) = false /\ w_parts (step w e) = w_parts w /\ w_spus (step w e) = w_spus w).
  { destruct e as [x|x|x|x| |x|x s|x|x|p|p sent|]; cbn [step]; rewrite ?W; try (now repeat split).
    - destruct (alive w x || (w_next w <=? n_number x)); now repeat split.
    - destruct (w_next w <=? n_number x); now repeat split.
    - destruct (serial_same w p) as (_ & S2 & S3 & S4 & _). rewrite S2, S3, S4. now repeat split.
    - destruct (stream_same w p sent) as (_ & S2 & S3 & S4 & _). rewrite S2, S3, S4. now repeat split.
    - destruct (finish_same w) as (_ & S2 & S3 & S4 & _). rewrite S2, S3, S4. now repeat split. }
  destruct S as (S1 & S2 & S3). destruct (IH (step w e) S1) as (A & B & C). unfold run in *. rewrite B, C. now repeat split.
Qed.

Lemma frozen_leader : forall w es p, leader_of (run (step w Lost) es) p = leader_of w p.
Proof. intros w es p. destruct (frozen es (step w Lost)) as (_ & B & _); [reflexivity|]. unfold leader_of. now rewrite B. Qed.

Lemma unknown_spu : forall w p l, leads w p l -> w_spus w <> None -> with_id l (held (w_spus w)) = None -> no_connection w l -> w_trying w = None ->
  snd (serial w p) = Failed SpuNotFound.
Proof.
  intros w p l L N G C T. unfold serial, leader_of, look. unfold leads in L. destruct (w_parts w) as [m|]; [|discriminate]. cbn [held] in L. rewrite L.
  unfold serial_from_leader. rewrite T. destruct (w_spus w) as [s|] eqn:S; [|congruence]. cbn [held] in G.
  assert (B : forall w', w_spus w' = Some s -> snd (begin_connect w' l) = Failed SpuNotFound).
  { intros w' E. unfold begin_connect, look. rewrite E, G. reflexivity. }
  destruct (get l (w_pool w)) as [c|] eqn:P; [rewrite (C c P)|]; apply B; exact S.
Qed.
Lemma unknown_partition : forall w p, w_parts w <> None -> get p (held (w_parts w)) = None ->
  serial w p = (w, Failed PartitionNotFound) /\ (forall sent, stream w p sent = (w, Failed PartitionNotFound)) /\
  topic_exists w p = Found false.
Proof.
  intros w p N G. assert (L : leader_of w p = Nothing).
  { unfold leader_of, look. destruct (w_parts w) as [m|]; [|congruence]. cbn [held] in G. now rewrite G. }
  unfold serial, stream, topic_exists. rewrite L. now repeat split.
Qed.

Lemma known_topic : forall w p, topic_exists w p = Found true <-> exists l, leads w p l.
Proof.
  intros w p. unfold topic_exists. split.
  - destruct (leader_of w p) as [l| |] eqn:L; try discriminate. intros _. exists l. now apply leader_found.
  - intros [l L]. apply leader_found in L. now rewrite L.
Qed.

Lemma deletes_nothing : forall (l : list (change Z)), (forall k a, ~ In (Mod k a) l) -> receive_changes l None = None.
Proof.
  intros l. unfold receive_changes. induction l as [|c l IH]; intro N; [reflexivity|]. cbn [fold_left].
  destruct c as [k a|k]; [exfalso; apply (N k a); now left|]. cbn [receive_change]. apply IH. intros k' a' H. apply (N k' a'). now right.
Qed.

Lemma parts_none : forall es w, w_parts w = None -> Forall topicless es -> w_parts (run w es) = None.
Proof.
  induction es as [|e es IH]; intros w N F; [exact N|]. inversion F as [|? ? F1 F2]; subst. cbn [run fold_left].
  apply (IH (step w e)); [|exact F2]. destruct e as [x|x|x|x| |x|x s|x|x|p|p sent|]; cbn [step].
  - cbn [topicless] in F1. subst x. destruct (w_watch w); exact N.
  - destruct (w_watch w); [|exact N]. cbn [set_parts w_parts]. rewrite N. now apply deletes_nothing.
  - destruct (w_watch w); exact N.
  - destruct (w_watch w); exact N.
  - exact N.
  - exact N.
  - exact N.
  - destruct (alive w x || (w_next w <=? n_number x)); exact N.
  - destruct (w_next w <=? n_number x); exact N.
  - destruct (serial_same w p) as (_ & _ & S3 & _). now rewrite S3.
  - destruct (stream_same w p sent) as (_ & _ & S3 & _). now rewrite S3.
  - destruct (finish_same w) as (_ & _ & S3 & _). now rewrite S3.
Qed.

Lemma no_topics : forall loc u es p, Forall topicless es -> topic_exists (run (start loc u) es) p = TimedOut.
Proof.
  intros loc u es p F. unfold topic_exists, leader_of. rewrite (parts_none es (start loc u)); [reflexivity | reflexivity | exact F].
Qed.

(** the last topic goes: the SC sends all of nothing *)
Lemma last_topic : forall w p l, leads w p l -> leads (step w (AllParts [])) p l.
Proof. intros w p l L. cbn [step]. destruct (w_watch w); exact L. Qed.

(** * The lock of the pool *)

Lemma pool_held : forall w a p, w_trying w = Some a -> (exists l, leads w p l) ->
  serial w p = (w, Held) /\ forall sent, stream w p sent = (w, Held).
Proof.
  intros w a p T (l & L). apply leader_found in L. unfold serial, serial_from_leader, stream. rewrite L, T. now split.
Qed.

(** * Producers that reconnect *)

Lemma reconnect_found : forall ess w p w' c, reconnect w p ess = (w', Some c) ->
  exists w1, whole (serial w1 p) = (w', Given c).
Proof.
  induction ess as [|es ess IH]; intros w p w' c H; cbn [reconnect] in H; [discriminate|].
  destruct (whole (serial (run w es) p)) as [w1 r] eqn:E. destruct r as [c'|e| |]; try (now apply (IH w1)).
  injection H as E1 E2. subst w' c'. now exists (run w es).
Qed.

Lemma reconnect_first : forall before es after w p w0, reconnect w p before = (w0, None) ->
  reconnect w p (before ++ es :: after) =
  match whole (serial (run w0 es) p) with (w1, Given c) => (w1, Some c) | (w1, _) => reconnect w1 p after end.
Proof.
  induction before as [|b before IH]; intros es after w p w0 H; cbn [reconnect app] in *.
  - injection H as ->. reflexivity.
  - destruct (whole (serial (run w b) p)) as [w1 r]. destruct r as [c'|e| |]; try (now apply IH). discriminate.
Qed.

Lemma reconnect_up : forall before es w p w0 l a srv, reconnect w p before = (w0, None) ->
  up (run w0 es) p l a srv -> no_connection (run w0 es) l ->
  exists w' c, reconnect w p (before ++ [es]) = (w', Some c) /\ n_addr c = a /\ n_server c = srv /\ alive w' c = true.
Proof.
  intros before es w p w0 l a srv H U NC. destruct (serial_reconnects _ _ _ _ _ U NC) as (w' & c & E & A1 & A2 & A3).
  exists w', c. rewrite (reconnect_first before es [] w p w0 H), E. now repeat split.
Qed.

Lemma gone_parts : forall l s p, (forall k a, In (Mod k a) l -> k <> p) -> get p (held s) = None ->
  get p (held (receive_changes (A := Z) l s)) = None.
Proof.
  intros l. unfold receive_changes. induction l as [|c l IH]; intros s p N G; [exact G|]. cbn [fold_left].
  apply IH; [intros k a H; apply (N k a); now right|]. destruct c as [k a|k].
  - cbn [receive_change held]. rewrite get_put_other; [exact G|]. apply not_eq_sym, (N k a). now left.
  - destruct s as [m|]; [|exact G]. cbn [receive_change held] in *. destruct (Z.eq_dec p k) as [->|X]; [apply get_del_same | now rewrite get_del_other].
Qed.

Lemma gone_step : forall w e p, no_news p e -> get p (held (w_parts w)) = None -> get p (held (w_parts (step w e))) = None.
Proof.
  intros w e p N G. destruct e as [x|x|x|x| |x|x s|x|x|q|q sent|]; cbn [step no_news] in *.
  - destruct (w_watch w); [|exact G]. cbn [set_parts w_parts]. destruct x as [|y x]; [exact G | exact N].
  - destruct (w_watch w); [|exact G]. cbn [set_parts w_parts]. now apply gone_parts.
  - destruct (w_watch w); exact G.
  - destruct (w_watch w); exact G.
  - exact G.
  - exact G.
  - exact G.
  - destruct (alive w x || (w_next w <=? n_number x)); exact G.
  - destruct (w_next w <=? n_number x); exact G.
  - destruct (serial_same w q) as (_ & _ & S3 & _). now rewrite S3.
  - destruct (stream_same w q sent) as (_ & _ & S3 & _). now rewrite S3.
  - destruct (finish_same w) as (_ & _ & S3 & _). now rewrite S3.
Qed.
Lemma gone_run : forall es w p, Forall (no_news p) es -> get p (held (w_parts w)) = None -> get p (held (w_parts (run w es))) = None.
Proof.
  induction es as [|e es IH]; intros w p F G; [exact G|]. inversion F; subst. cbn [run fold_left]. apply (IH (step w e)); [assumption | now apply gone_step].
Qed.

Lemma serial_gone : forall w p, get p (held (w_parts w)) = None -> exists e, serial w p = (w, Failed e).
Proof.
  intros w p G. unfold serial, leader_of, look. destruct (w_parts w) as [m|]; [|now exists Timeout].
  cbn [held] in G. rewrite G. now exists PartitionNotFound.
Qed.

Lemma reconnect_gone : forall ess w p, get p (held (w_parts w)) = None -> Forall (Forall (no_news p)) ess ->
  snd (reconnect w p ess) = None.
Proof.
  induction ess as [|es ess IH]; intros w p G F; [reflexivity|]. inversion F; subst. cbn [reconnect].
  assert (G' : get p (held (w_parts (run w es))) = None) by now apply gone_run.
  destruct (serial_gone _ _ G') as [e E]. rewrite E. unfold whole. cbn [snd]. now apply IH.
Qed.

(** * The producers of a topic *)

Lemma push_room : forall t p fresh, t_holder t = Nobody -> queued t p < t_size t ->
  snd (topic_step t (Push p fresh)) = true /\ t_holder (fst (topic_step t (Push p fresh))) = Nobody /\
  (forall q, queued (fst (topic_step t (Push p fresh))) q = if q =? p then (if fresh || (queued t p =? 0) then queued t p + 1 else queued t p) else queued t q).
Proof.
  intros t p fresh H R. cbn [topic_step]. rewrite H. apply Z.ltb_lt in R. rewrite R. cbn [fst snd].
  repeat split. intros q. unfold queued at 1, enqueue. cbn [t_queue]. destruct (q =? p) eqn:Q.
  - apply Z.eqb_eq in Q. subst q. rewrite get_put_same. reflexivity.
  - apply Z.eqb_neq in Q. now rewrite get_put_other.
Qed.

Lemma queued_put : forall sz q p n h, queued (mkTopic sz (put p n q) h) p = n.
Proof. intros. unfold queued. cbn [t_queue]. now rewrite get_put_same. Qed.

(** a push that waits for room in one partition *)
Lemma push_waits : forall es t p, t_holder t = Pushing p -> Forall (keeps p) es ->
  t_holder (topic_run t es) = Pushing p /\
  (forall q fresh, snd (topic_step (topic_run t es) (Push q fresh)) = false) /\
  snd (topic_step (topic_run t es) Flush) = false.
Proof.
  assert (B : forall es t p, t_holder t = Pushing p -> Forall (keeps p) es -> t_holder (topic_run t es) = Pushing p).
  { induction es as [|e es IH]; intros t p H F; [exact H|]. inversion F as [|? ? F1 F2]; subst. cbn [topic_run fold_left].
    apply (IH (fst (topic_step t e)) p); [|exact F2]. destruct e as [q fresh| |q n|ok]; cbn [topic_step]; rewrite H; try exact H.
    cbn [keeps] in F1. apply Z.eqb_neq in F1. rewrite F1. reflexivity. }
  intros es t p H F. pose proof (B es t p H F) as X. split; [exact X|]. split.
  - intros q fresh. cbn [topic_step]. now rewrite X.
  - cbn [topic_step]. now rewrite X.
Qed.

Lemma push_full : forall t p fresh es, t_holder t = Nobody -> t_size t <= queued t p -> Forall (keeps p) es ->
  let t' := topic_run (fst (topic_step t (Push p fresh))) es in
  snd (topic_step t (Push p fresh)) = false /\
  (forall q fresh', snd (topic_step t' (Push q fresh')) = false) /\ snd (topic_step t' Flush) = false.
Proof.
  intros t p fresh es H R F t'. assert (E : topic_step t (Push p fresh) = (mkTopic (t_size t) (t_queue t) (Pushing p), false)).
  { cbn [topic_step]. rewrite H. assert (X : (queued t p <? t_size t) = false) by now apply Z.ltb_ge. now rewrite X. }
  split; [now rewrite E|]. unfold t'. rewrite E. cbn [fst]. destruct (push_waits es (mkTopic (t_size t) (t_queue t) (Pushing p)) p eq_refl F) as (_ & A & B).
  now split.
Qed.

Lemma push_released : forall t p n, t_holder t = Pushing p -> Z.max 0 (queued t p - Z.max 0 n) < t_size t ->
  snd (topic_step t (Sent p n)) = true /\ t_holder (fst (topic_step t (Sent p n))) = Nobody /\
  queued (fst (topic_step t (Sent p n))) p = Z.max 0 (queued t p - Z.max 0 n) + 1.
Proof.
  intros t p n H R. cbn [topic_step]. rewrite H, Z.eqb_refl, queued_put. apply Z.ltb_lt in R. rewrite R. split; [reflexivity|]. split; [reflexivity|].
  cbn [andb fst]. unfold enqueue. rewrite !queued_put. reflexivity.
Qed.

(** a flush waits for the producers of all partitions, whatever their queues have *)
Lemma flush_waits : forall es t ps, t_holder t = Flushing ps -> Forall unflushed es ->
  t_holder (topic_run t es) = Flushing ps /\
  (forall q fresh, snd (topic_step (topic_run t es) (Push q fresh)) = false).
Proof.
  assert (B : forall es t ps, t_holder t = Flushing ps -> Forall unflushed es -> t_holder (topic_run t es) = Flushing ps).
  { induction es as [|e es IH]; intros t ps H F; [exact H|]. inversion F as [|? ? F1 F2]; subst. cbn [topic_run fold_left].
    apply (IH (fst (topic_step t e)) ps); [|exact F2]. destruct e as [q fresh| |q n|ok]; cbn [topic_step]; rewrite ?H; try exact H; [reflexivity | contradiction]. }
  intros es t ps H F. pose proof (B es t ps H F) as X. split; [exact X|].
  intros q fresh. cbn [topic_step]. now rewrite X.
Qed.

Lemma flush_held : forall t es, t_holder t = Nobody -> t_queue t <> [] -> Forall unflushed es ->
  let t' := topic_run (fst (topic_step t Flush)) es in
  snd (topic_step t Flush) = false /\ t_holder t' = Flushing (map fst (t_queue t)) /\
  (forall q fresh, snd (topic_step t' (Push q fresh)) = false).
Proof.
  intros t es H N F t'. assert (E : topic_step t Flush = (mkTopic (t_size t) (t_queue t) (Flushing (map fst (t_queue t))), false)).
  { cbn [topic_step]. rewrite H. destruct (t_queue t); [congruence | reflexivity]. }
  split; [now rewrite E|]. unfold t'. rewrite E. cbn [fst]. now apply flush_waits.
Qed.

(** flushed one after the other, and then it returns, everything having left *)
Lemma flush_loop : forall ps t, t_holder t = Flushing ps -> ps <> [] ->
  let t' := topic_run t (map (fun _ => Flushed true) ps) in
  t_holder t' = Nobody /\ (forall p, In p ps -> queued t' p = 0) /\ (forall p, queued t p = 0 -> queued t' p = 0).
Proof.
  assert (Z0 : forall q p x, queued (mkTopic x (put p 0 q) Nobody) p = 0) by (intros; apply queued_put).
  induction ps as [|p ps IH]; intros t H N t'; [congruence|].
  destruct ps as [|p2 ps].
  - unfold t'. cbn [map topic_run fold_left topic_step]. rewrite H. cbn [fst t_holder]. split; [reflexivity|].
    split; [intros x [<- | []]; apply queued_put|]. intros x Q. unfold queued in *. cbn [t_queue].
    destruct (Z.eq_dec x p) as [->|X]; [now rewrite get_put_same | now rewrite get_put_other].
  - set (t1 := mkTopic (t_size t) (put p 0 (t_queue t)) (Flushing (p2 :: ps))).
    assert (E : fst (topic_step t (Flushed true)) = t1) by (cbn [topic_step]; rewrite H; reflexivity).
    destruct (IH t1 eq_refl ltac:(discriminate)) as (A & B & C).
    assert (E' : t' = topic_run t1 (map (fun _ => Flushed true) (p2 :: ps))).
    { unfold t', topic_run. change (map (fun _ => Flushed true) (p :: p2 :: ps)) with (Flushed true :: map (fun _ => Flushed true) (p2 :: ps)).
      cbn [fold_left]. rewrite E. reflexivity. }
    rewrite E'. split; [exact A|]. split.
    + intros x [<- | I1]; [apply C; unfold t1; apply queued_put | now apply B].
    + intros x Q. apply C. unfold t1, queued in *. cbn [t_queue].
      destruct (Z.eq_dec x p) as [->|X]; [now rewrite get_put_same | now rewrite get_put_other].
Qed.

Lemma get_in_keys : forall A (q : list (Z * A)) p a, get p q = Some a -> In p (map fst q).
Proof.
  intros A q p a. induction q as [|[k x] q IH]; cbn [get map fst]; [discriminate|].
  destruct (p =? k) eqn:E; [apply Z.eqb_eq in E; subst; now left | intro; right; now apply IH].
Qed.

Lemma flush_failed : forall t p ps, t_holder t = Flushing (p :: ps) ->
  snd (topic_step t (Flushed false)) = true /\ t_holder (fst (topic_step t (Flushed false))) = Nobody /\
  (forall q, queued (fst (topic_step t (Flushed false))) q = if q =? p then 0 else queued t q).
Proof.
  intros t p ps H. cbn [topic_step]. rewrite H. split; [reflexivity|]. split; [reflexivity|]. intros q. cbn [fst]. destruct (q =? p) eqn:Q.
  - apply Z.eqb_eq in Q. subst q. apply queued_put.
  - apply Z.eqb_neq in Q. unfold queued. cbn [t_queue]. now rewrite get_put_other.
Qed.
Lemma flush_empties : forall t, t_holder t = Nobody -> t_queue t <> [] ->
  let t' := topic_run t (Flush :: map (fun _ => Flushed true) (t_queue t)) in
  t_holder t' = Nobody /\ (forall p, queued t' p = 0).
Proof.
  intros t H N t'. set (t1 := mkTopic (t_size t) (t_queue t) (Flushing (map fst (t_queue t)))).
  assert (E : t' = topic_run t1 (map (fun _ => Flushed true) (map fst (t_queue t)))).
  { unfold t', topic_run. cbn [fold_left]. assert (X : fst (topic_step t Flush) = t1).
    { cbn [topic_step]. rewrite H. unfold t1. destruct (t_queue t); [congruence | reflexivity]. }
    rewrite X. rewrite map_map. reflexivity. }
  destruct (flush_loop (map fst (t_queue t)) t1 eq_refl) as (A & B & C).
  - destruct (t_queue t); [congruence | discriminate].
  - rewrite E. split; [exact A|]. intros p. destruct (get p (t_queue t)) as [n|] eqn:G.
    + apply B. eapply get_in_keys, G.
    + apply C. unfold queued, t1. cbn [t_queue]. now rewrite G.
Qed.

(** * Findings *)

Definition two : list (Z * spu) := [(10, mkSpu 1 100 None); (20, mkSpu 2 200 (Some 201))].
Definition all_up : list (Z * Z) := [(100, 7); (200, 8); (201, 9)].
Definition known : list event := [AllSpus two; AllParts [(5, 1); (6, 2)]].

Lemma unnoticed : exists es p l a srv w' c, let w := run (start false all_up) es in
  up w p l a srv /\ whole (serial w p) = (w', Given c) /\ alive w' c = false.
Proof.
  exists (known ++ [Serial 5; Finish; Stop 100; Listen 100 17]), 5, 1, 100, 17. eexists _, (mkConn 0 100 7). split; [|split].
  - split; [reflexivity|]. split; [exists (mkSpu 1 100 None); split; reflexivity|]. split; reflexivity.
  - vm_compute. reflexivity.
  - reflexivity.
Qed.

Lemma moved : exists es p l a srv w' c, let w := run (start false all_up) es in
  up w p l a srv /\ whole (serial w p) = (w', Given c) /\ alive w' c = true /\ n_addr c <> a /\ n_server c <> srv.
Proof.
  exists (known ++ [Serial 5; Finish; Listen 300 12; ChangeSpus [Mod 10 (mkSpu 1 300 None)]]), 5, 1, 300, 12.
  eexists _, (mkConn 0 100 7). split; [|split; [|split; [|split]]].
  - split; [reflexivity|]. split; [exists (mkSpu 1 300 None); split; reflexivity|]. split; reflexivity.
  - vm_compute. reflexivity.
  - reflexivity.
  - discriminate.
  - discriminate.
Qed.

(** the stream goes to a connection known to have ended *)
Lemma between : exists w es p l a srv w' c, up (run (fst (whole (serial w p))) es) p l a srv /\
  open_consumer w p es true = (w', Given c) /\ known_stale w' c = true /\ alive w' c = false.
Proof.
  set (w := run (start false all_up) (known ++ [Serial 6; Finish; Stop 200; Noticed (mkConn 0 200 8); Listen 200 18])).
  exists w, [ChangeParts [Mod 5 2]], 5, 2, 200, 18. eexists _, (mkConn 0 200 8). split; [|split; [|split]].
  - split; [reflexivity|]. split; [exists (mkSpu 2 200 (Some 201)); split; reflexivity|]. split; reflexivity.
  - vm_compute. reflexivity.
  - reflexivity.
  - reflexivity.
Qed.

Lemma stream_only : exists es p l a srv c, let w := run (start false all_up) es in
  up w p l a srv /\ known_stale w c = true /\ alive w c = false /\
  forall sents sent, stream (run w (map (Stream p) sents)) p sent = (w, if sent then Given c else Failed SendFailed).
Proof.
  exists (known ++ [Serial 5; Finish; Stop 100; Noticed (mkConn 0 100 7); Listen 100 17]), 5, 1, 100, 17, (mkConn 0 100 7). intro w.
  split; [split; [reflexivity|]; split; [exists (mkSpu 1 100 None); split; reflexivity | split; reflexivity]|].
  split; [reflexivity|]. split; [reflexivity|]. intros sents sent.
  destruct (stream_stuck (length sents) w 5 1 (mkConn 0 100 7) eq_refl eq_refl eq_refl eq_refl sents eq_refl) as [A B].
  rewrite A. apply B.
Qed.
