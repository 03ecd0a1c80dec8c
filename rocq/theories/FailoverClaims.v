From Verif Require Import ReplicationModel ReplicationSpec StorageSpec RecordSpec RecordProofs WireProofs StorageProofs ReplicaProofs StorageClaims ReplicationClaims FailoverModel FailoverSpec FailoverProofs FailoverProgress ListFacts.

(** * Concrete runs *)
Definition rec_a : list (batch bytes) := [demo 1 60].
Definition rec_b : list (batch bytes) := [demo 1 50].
Inductive move :=
  | XProduce (a : bool) | XReport (i : Z) | XReceive (i : Z) | XSend (i : Z) | XDeliver (i : Z)
  | XElect (j : Z) (k : ckpt) (gone : list Z) (late : bool).
Fixpoint first_report (i : Z) (l : list msg) : option info :=
  match l with [] => None | ToLeader j q :: t => if j =? i then Some q else first_report i t | _ :: t => first_report i t end.
Fixpoint first_sync (i : Z) (l : list msg) : option sync :=
  match l with [] => None | ToFollower j m :: t => if j =? i then Some m else first_sync i t | _ :: t => first_sync i t end.
Definition roomb (r : replica) (l : list (batch bytes)) : bool :=
  (get_leo r + total l - m_base (r_active r) <? 2 ^ 31) && (get_leo r + total l <? 2 ^ 63).
Definition memb (i : Z) (l : list Z) : bool := existsb (fun x => x =? i) l.
Definition folb (g : members) (y : system) (i : Z) : bool := memb i (g_replicas g) && negb (i =? y_leader y) && negb (memb i (y_lost y)).
(** [long]: the elected replica has the longest log; [none]: no late messages *)
Definition moveb (g : members) (long none : bool) (y : system) (a : move) : option system :=
  let s := y_cluster y in let p := led_by g (y_leader y) in
  let on (s' : cluster) := Some (mkSystem (y_leader y) (y_lost y) s') in
  match a with
  | XProduce a => let l := if a then rec_a else rec_b in if roomb (k_leader s) l then on (do_produce p 0 l s) else None
  | XReport i => if folb g y i then on (do_report i s) else None
  | XReceive i => match first_report i (k_net s) with
                  | Some q => if 0 <=? get_hw (k_leader s) then on (do_receive p i q s) else None
                  | None => None
                  end
  | XSend i => match follower_updates (as_offset (k_leader s)) (k_leader s) (k_views s) i (p_max_bytes p) with
               | Some m => if folb g y i && (0 <=? get_hw (k_leader s)) then on (do_send p i s) else None
               | None => None
               end
  | XDeliver i => match first_sync i (k_net s) with
                  | Some m => if folb g y i && roomb (k_follower s i) (receive (s_records m)) then on (do_deliver p i 0 m s) else None
                  | None => None
                  end
  | XElect j k gone late =>
      match exec (g_conf g (y_leader y)) (k_leader s) (Restart 0 k) with
      | Done old =>
          if folb g y j && negb (memb j gone) && (0 <=? ckpt_value (m_base (r_active (k_leader s))) k)
             && (ckpt_value (m_base (r_active (k_leader s))) k <=? get_hw (k_leader s))
             && (negb none || negb late)
             && (negb long || forallb (fun i => memb i (y_lost y) || memb i gone || (get_leo (node y i) <=? get_leo (node y j))) (g_replicas g))
          then Some (mkSystem j (gone ++ y_lost y) (change_leader g s (y_leader y) j old (if late then k_net s else [])))
          else None
      | Fail _ => None
      end
  end.
Fixpoint moves (g : members) (long none : bool) (y : system) (l : list move) : option system :=
  match l with [] => Some y | a :: t => match moveb g long none y a with Some y' => moves g long none y' t | None => None end end.
Definition guard (long none : bool) : members -> system -> fevent -> Prop :=
  match long, none with true, true => complete | true, false => complete_but_late | false, true => nothing_late | false, false => fun _ _ _ => True end.

Lemma memb_in i l : memb i l = true <-> In i l.
Proof. unfold memb. rewrite existsb_exists. split; [intros (x & I & E); apply Z.eqb_eq in E; subst; assumption|intros I; exists i; split; [assumption|apply Z.eqb_refl]]. Qed.
Lemma memb_out i l : memb i l = false -> ~ In i l.
Proof. intros E I. apply memb_in in I. congruence. Qed.
Lemma folb_ok g y i : folb g y i = true -> follower (led_by g (y_leader y)) i /\ ~ In i (y_lost y).
Proof.
  unfold folb. intros H. apply andb_true_iff in H as (H & C). apply andb_true_iff in H as (A & B). apply memb_in in A. apply negb_true_iff in B, C.
  apply Z.eqb_neq in B. split; [split; assumption|apply memb_out; assumption].
Qed.
Lemma roomb_ok r l : roomb r l = true -> room r l.
Proof. unfold roomb, room. lia. Qed.
Lemma first_report_in i l q : first_report i l = Some q -> In (ToLeader i q) l.
Proof. induction l as [|[j m|j q'] l IH]; cbn [first_report]; [discriminate|intros H; right; auto|]. destruct (Z.eqb_spec j i) as [->|]; [intros H; inversion H; left; reflexivity|intros H; right; auto]. Qed.
Lemma first_sync_in i l q : first_sync i l = Some q -> In (ToFollower i q) l.
Proof. induction l as [|[j m|j q'] l IH]; cbn [first_sync]; [discriminate| |intros H; right; auto]. destruct (Z.eqb_spec j i) as [->|]; [intros H; inversion H; left; reflexivity|intros H; right; auto]. Qed.
Lemma recs_ok (a : bool) : Forall raw_batch_ok (if a then rec_a else rec_b).
Proof. destruct a; constructor; try (apply demo_ok; [closed_range|vm_compute; reflexivity]); constructor. Qed.
Lemma recs_plain (a : bool) : Forall (fun b => has_schema (b_hdr b) = false) (if a then rec_a else rec_b).
Proof. destruct a; repeat constructor. Qed.

Lemma moveb_ok g long none y a y' : moveb g long none y a = Some y' -> exists e, guard long none g y e /\ fstep g y e y'.
Proof.
  assert (forall e, (forall j n k gone late, e <> Elect j n k gone late) -> guard long none g y e) as NE.
  { intros e N. unfold guard. destruct long, none; destruct e; cbn; try exact I; exfalso; eapply N; reflexivity. }
  destruct a as [a|i|i|i|i|j k gone late]; cbn [moveb]; cbv zeta.
  - destruct (roomb _ _) eqn:R; [|discriminate]. intros H; inversion H; subst y'; clear H. apply roomb_ok in R.
    eexists (Act _). split; [apply NE; discriminate|]. apply fstep_act; [|apply (step_produce _ _ 0); [apply recs_ok|apply recs_plain|exact R]]. exact I.
  - destruct (folb g y i) eqn:F; [|discriminate]. intros H; inversion H; subst y'; clear H. apply folb_ok in F.
    exists (Act (Report i)). split; [apply NE; discriminate|]. apply fstep_act; [exact F|apply step_report; apply F].
  - destruct (first_report i _) as [q|] eqn:R; [|discriminate]. destruct (0 <=? _) eqn:Z0; [|discriminate]. intros H; inversion H; subst y'; clear H. apply first_report_in in R.
    exists (Act (Receive i q (as_offset (k_leader (y_cluster y))))). split; [apply NE; discriminate|]. apply fstep_act; [exact I|].
    apply step_receive; [exact R|split; cbn; lia|apply surjective_pairing].
  - destruct (follower_updates _ _ _ _ _) as [m|] eqn:U; [|discriminate]. destruct (folb g y i && _) eqn:F; [|discriminate]. intros H; inversion H; subst y'; clear H.
    apply andb_true_iff in F as (F & Z0). apply folb_ok in F.
    exists (Act (Send i (as_offset (k_leader (y_cluster y))))). split; [apply NE; discriminate|]. apply fstep_act; [exact I|].
    unfold do_send, sent. rewrite U. cbn [snd_m]. apply step_send; [apply F|split; cbn; lia|exact U].
  - destruct (first_sync i _) as [m|] eqn:R; [|discriminate]. destruct (folb g y i && _) eqn:F; [|discriminate]. intros H; inversion H; subst y'; clear H.
    apply andb_true_iff in F as (F & RM). apply folb_ok in F. apply roomb_ok in RM. apply first_sync_in in R.
    exists (Act (Deliver i 0 m)). split; [apply NE; discriminate|]. apply fstep_act; [exact F|]. apply step_deliver; assumption.
  - destruct (exec _ _ _) as [old|er] eqn:EX; [|discriminate].
    match goal with |- (if ?c then _ else _) = _ -> _ => destruct c eqn:C end; [|discriminate]. intros H; inversion H; subst y'; clear H.
    apply andb_true_iff in C as (C & LO). apply andb_true_iff in C as (C & NO). apply andb_true_iff in C as (C & C4). apply andb_true_iff in C as (C & C3). apply andb_true_iff in C as (C1 & C2).
    apply folb_ok in C1 as (F & NL). apply negb_true_iff in C2. apply memb_out in C2.
    exists (Elect j 0 k gone (if late then k_net (y_cluster y) else [])). split.
    + assert (long = true -> forall i, takes_part g y i -> ~ In i gone -> get_leo (node y i) <= get_leo (node y j)) as LONG.
      { intros -> i (T1 & T2) G. cbn [negb orb] in LO. rewrite forallb_forall in LO. specialize (LO i T1).
        destruct (memb i (y_lost y)) eqn:M1; [apply memb_in in M1; contradiction|]. destruct (memb i gone) eqn:M2; [apply memb_in in M2; contradiction|]. cbn [orb] in LO. lia. }
      assert (none = true -> (if late then k_net (y_cluster y) else []) = []) as NONE by (intros ->; destruct late; [discriminate|reflexivity]).
      unfold guard. destruct long, none; cbn; auto.
    + apply fstep_elect; [exact F|exact NL|exact C2|destruct late; [apply incl_refl|intros x []]|lia|exact EX].
Qed.
Lemma moves_run g long none l : forall y y', moves g long none y l = Some y' -> fruns g (guard long none g) y y'.
Proof.
  assert (forall y y' y'', fruns g (guard long none g) y y' -> fruns g (guard long none g) y' y'' -> fruns g (guard long none g) y y'') as TR.
  { intros y y' y'' A B. induction B as [|y' y1 y2 e B IH G S]; [assumption|]. eapply fruns_more; [apply IH; assumption|exact G|exact S]. }
  induction l as [|a l IH]; intros y y' H; cbn [moves] in H; [inversion H; subst; constructor|].
  destruct (moveb g long none y a) as [y1|] eqn:M; [|discriminate]. destruct (moveb_ok _ _ _ _ _ _ M) as (e & G & S).
  eapply TR; [|apply IH; exact H]. eapply fruns_more; [constructor|exact G|exact S].
Qed.

Definition ids (n : nat) : list Z := map Z.of_nat (seq 1 n).
Definition trio (n : nat) : members := mkMembers (ids n) (fun _ => above_c) 1000.
Lemma trio_ok n : Z.of_nat n < 2 ^ 16 -> members_ok (trio n).
Proof.
  intros N. split; [apply FinFun.Injective_map_NoDup; [intros a b; lia|apply seq_NoDup]|]. split; [unfold trio, ids, zlen; cbn [g_replicas]; rewrite map_length, seq_length; assumption|].
  intros i. split; [exact above_c_ok|vm_compute; congruence].
Qed.
Definition end_of (o : option system) (y0 : system) : system := match o with Some y => y | None => y0 end.
Lemma end_of_run g long none l y0 : match moves g long none y0 l with Some _ => true | None => false end = true -> fruns g (guard long none g) y0 (end_of (moves g long none y0 l) y0).
Proof. intros H. destruct (moves g long none y0 l) as [y|] eqn:M; [|discriminate]. cbn [end_of]. eapply moves_run. exact M. Qed.

(** Everything of the leader reaches follower [i], and the leader knows. *)
Definition copy_to (i : Z) : list move := [XReport i; XReceive i; XSend i; XDeliver i; XReport i; XReceive i].
Definition tell (i : Z) : list move := [XSend i; XDeliver i].

(** Leader 1 commits a record, 2 is elected and 1 follows it, then 1 again. *)
Definition middle : system := end_of (moves (trio 2) true true (begin (trio 2) 1) ([XProduce true] ++ copy_to 2)) (begin (trio 2) 1).
Definition later : system := end_of (moves (trio 2) true true middle (tell 2 ++ [XElect 2 (Value 1) [] false; XProduce false] ++ copy_to 1 ++ tell 1 ++ [XElect 1 (Value 2) [] false])) middle.
Lemma trio_ex : members_ok (trio 2) /\ fruns (trio 2) (complete (trio 2)) (begin (trio 2) 1) middle /\ fruns (trio 2) (complete (trio 2)) middle later
  /\ y_leader middle = 1 /\ get_hw (node middle 1) = 1 /\ y_leader later = 1 /\ get_leo (node later 1) = 2 /\ get_leo (node later 2) = 2
  /\ get_hw (node later 1) = 2 /\ log_bytes (node later 1) = log_bytes (node later 2).
Proof.
  split; [apply trio_ok; vm_compute; reflexivity|]. split; [apply (end_of_run (trio 2) true true); vm_compute; reflexivity|].
  split; [apply (end_of_run (trio 2) true true); vm_compute; reflexivity|]. vm_compute. repeat split.
Qed.

(** 1 writes a record that reaches nobody, 2 is elected, writes another one,
    counts 1 as having it and commits it; then 1 is elected. *)
Definition split_y : system := end_of (moves (trio 2) false true (begin (trio 2) 1) [XProduce true; XElect 2 (Value 0) [] false; XProduce false; XReport 1; XReceive 1]) (begin (trio 2) 1).
Definition split_y2 : system := end_of (moves (trio 2) true true split_y [XElect 1 (Value 0) [2] false]) split_y.
Lemma shorter_refuted : exists g l y y', members_ok g /\ In l (g_replicas g) /\ fruns g (nothing_late g) (begin g l) y /\ fruns g (complete g) y y'
  /\ (let r := node y (y_leader y) in get_log_start r = 0 /\ get_leo r = 1 /\ get_hw r = 1)
  /\ (let r := node y' (y_leader y') in get_log_start r = 0 /\ get_leo r = 1)
  /\ takes_part g y (y_leader y') /\ log_bytes (node y (y_leader y)) <> log_bytes (node y (y_leader y'))
  /\ log_bytes (node y (y_leader y)) <> log_bytes (node y' (y_leader y')).
Proof.
  exists (trio 2), 1, split_y, split_y2. split; [apply trio_ok; vm_compute; reflexivity|]. split; [left; reflexivity|].
  split; [apply (end_of_run (trio 2) false true); vm_compute; reflexivity|]. split; [apply (end_of_run (trio 2) true true); vm_compute; reflexivity|].
  split; [vm_compute; repeat split|]. split; [vm_compute; repeat split|].
  split; [split; [vm_compute; left; reflexivity|vm_compute; intros []]|]. split; vm_compute; discriminate.
Qed.

(** A message of the old leader arrives after the change. *)
Definition late_y : system := end_of (moves (trio 3) true false (begin (trio 3) 1) [XReport 3; XReceive 3; XProduce true; XSend 3; XElect 2 (Value 0) [1] true; XProduce false; XDeliver 3]) (begin (trio 3) 1).
Lemma late_refuted : exists g l y i, members_ok g /\ In l (g_replicas g) /\ fruns g (complete_but_late g) (begin g l) y
  /\ takes_part g y i /\ (let r := node y (y_leader y) in get_log_start r = 0 /\ get_leo r = 1)
  /\ (let r := node y i in get_log_start r = 0 /\ get_leo r = 1) /\ log_bytes (node y (y_leader y)) <> log_bytes (node y i).
Proof.
  exists (trio 3), 1, late_y, 3. split; [apply trio_ok; vm_compute; reflexivity|]. split; [left; reflexivity|].
  split; [apply (end_of_run (trio 3) true false); vm_compute; reflexivity|].
  split; [split; [cbn; auto|vm_compute; intros [X|[]]; discriminate]|]. split; [vm_compute; repeat split|]. split; [vm_compute; repeat split|]. vm_compute; discriminate.
Qed.

(** The new leader has not been told the watermark: it never commits anything. *)
Definition stuck_y : system := end_of (moves (trio 2) true true (begin (trio 2) 1) ([XProduce true] ++ copy_to 2 ++ [XElect 2 (Value 1) [] false])) (begin (trio 2) 1).
Lemma elected_stuck_refuted : exists g l y, members_ok g /\ In l (g_replicas g) /\ fruns g (complete g) (begin g l) y /\ y_lost y = []
  /\ (forall i, In i (g_replicas g) -> get_leo (node y i) = 1) /\ get_hw (node y (y_leader y)) = 0
  /\ forall s', runs (led_by g (y_leader y)) exchange_or_produce (y_cluster y) s' ->
       get_hw (k_leader s') = 0 /\ forall i, k_follower s' i = k_follower (y_cluster y) i.
Proof.
  exists (trio 2), 1, stuck_y. split; [apply trio_ok; vm_compute; reflexivity|]. split; [left; reflexivity|].
  split; [apply (end_of_run (trio 2) true true); vm_compute; reflexivity|]. split; [vm_compute; reflexivity|].
  split; [intros i [<-|[<-|[]]]; vm_compute; reflexivity|]. split; [vm_compute; reflexivity|].
  assert (exists s r, y_cluster stuck_y = restarted_leader (led_by (trio 2) 2) s r /\ get_hw r = 0 /\ get_hw (k_follower s 1) = 1 /\ k_follower s = k_follower (y_cluster stuck_y)) as (s & r & E & H1 & H2 & EF).
  { exists (y_cluster stuck_y), (k_leader (y_cluster stuck_y)). split; [vm_compute; reflexivity|]. split; [vm_compute; reflexivity|]. split; [vm_compute; reflexivity|reflexivity]. }
  intros s' RS. assert (y_leader stuck_y = 2) as EL by (vm_compute; reflexivity). rewrite EL, E in RS.
  destruct (behind_stuck (led_by (trio 2) 2) s r s') as (A & B); [apply led_ok; [apply trio_ok; vm_compute; reflexivity|right; left; reflexivity]|exists 1; split; [left; reflexivity|cbn; lia]| |exact RS|].
  - intros i (FI & NE). rewrite H1. cbn in FI, NE. destruct FI as [<-|[<-|[]]]; [rewrite H2; lia|congruence].
  - split; [congruence|]. intros i. rewrite <- EF. apply B.
Qed.

(** A replica is lost: the run of [lost_blocks]. *)
Definition lost_y : system := end_of (moves (trio 3) true true (begin (trio 3) 1) ([XProduce true] ++ copy_to 2 ++ copy_to 3 ++ [XElect 2 (Value 1) [1] false; XProduce false] ++ copy_to 3)) (begin (trio 3) 1).
Lemma lost_ex : members_ok (trio 3) /\ fruns (trio 3) (complete (trio 3)) (begin (trio 3) 1) lost_y /\ In 1 (g_replicas (trio 3)) /\ In 1 (y_lost lost_y)
  /\ y_leader lost_y = 2 /\ get_leo (node lost_y 2) = 2 /\ get_leo (node lost_y 3) = 2 /\ get_hw (node lost_y 2) = 0.
Proof.
  split; [apply trio_ok; vm_compute; reflexivity|]. split; [apply (end_of_run (trio 3) true true); vm_compute; reflexivity|].
  split; [left; reflexivity|]. split; [vm_compute; left; reflexivity|]. vm_compute. repeat split.
Qed.

Lemma one_log_ex : members_ok (trio 3) /\ In 1 (g_replicas (trio 3)) /\ fruns (trio 3) (complete (trio 3)) (begin (trio 3) 1) lost_y
  /\ y_leader lost_y = 2 /\ takes_part (trio 3) lost_y 3 /\ get_leo (node lost_y 2) = 2 /\ get_leo (node lost_y 3) = 2.
Proof.
  destruct lost_ex as (A & B & C & _ & D & E & F & _). split; [exact A|]. split; [exact C|]. split; [exact B|]. split; [exact D|]. split; [|split; [exact E|exact F]].
  split; [right; right; left; reflexivity|]. vm_compute. intros [X|[]]. discriminate.
Qed.

(** 2 is elected knowing the watermark and writes a record nobody else has. *)
Definition told_y : system := end_of (moves (trio 2) true true middle (tell 2 ++ [XElect 2 (Value 1) [] false; XProduce false])) middle.
Lemma told_ex : members_ok (trio 2) /\ fruns (trio 2) (complete (trio 2)) (begin (trio 2) 1) told_y
  /\ (forall i, In i (g_replicas (trio 2)) -> ~ In i (y_lost told_y))
  /\ (forall i, In i (g_replicas (trio 2)) -> get_hw (node told_y i) <= get_hw (node told_y (y_leader told_y)))
  /\ follower (led_by (trio 2) (y_leader told_y)) 1 /\ (forall i, follower (led_by (trio 2) (y_leader told_y)) i -> accepts (led_by (trio 2) (y_leader told_y)) i)
  /\ (forall i, In i (g_replicas (trio 2)) -> get_log_start (node told_y (y_leader told_y)) <= get_leo (node told_y i))
  /\ y_leader told_y = 2 /\ get_leo (node told_y 2) = 2 /\ get_hw (node told_y 2) = 1 /\ get_leo (node told_y 1) = 1.
Proof.
  assert (y_leader told_y = 2) as L by (vm_compute; reflexivity).
  split; [apply trio_ok; vm_compute; reflexivity|].
  split. { eapply fruns_trans; [apply trio_ex|]. apply (end_of_run (trio 2) true true). vm_compute. reflexivity. }
  split. { intros i _. vm_compute. intros []. }
  rewrite L. split. { intros i [<-|[<-|[]]]; vm_compute; discriminate. }
  split. { split; [left; reflexivity|vm_compute; discriminate]. }
  split. { intros i _. split; vm_compute; discriminate. }
  split. { intros i [<-|[<-|[]]]; vm_compute; discriminate. }
  vm_compute. repeat split.
Qed.
