(** Proofs about the producer. *)
From Coq Require Import Sorting.Sorted.
From Verif Require Import ProducerModel StorageSpec RecordSpec ProducerSpec WireSpec WireProofs RecordProofs ListFacts.

(** * Sizes *)
Lemma vsize_ge fuel : forall v a m, vsize_loop fuel v a = Some m -> a <= m.
Proof.
  induction fuel as [|f IH]; intros v a m; cbn [vsize_loop]; [discriminate|].
  destruct (Z.land v 0xffffff80 =? 0); [intros [= <-]; lia|]. intros H. apply IH in H. lia.
Qed.
Lemma varint_size_nonneg n : 0 <= varint_size n.
Proof.
  unfold varint_size. destruct (vsize_loop varint_fuel (zigzag n) 1) as [m|] eqn:E; cbn [option_get]; [|lia].
  apply vsize_ge in E. lia.
Qed.
Lemma body_size r : body_ok (rec_tuple r) -> c_size body_tuple_codec (rec_tuple r) = zlen (rec_body r).
Proof. intros H. destruct body_lawful as (_ & S & _). apply S. assumption. Qed.
Lemma body_pos r : 1 <= zlen (rec_body r).
Proof.
  unfold rec_body. cbn [body_tuple_codec pair_codec c_enc]. rewrite zlen_app. destruct (rec_tuple r) as [a t]. cbn [fst].
  cbn [i8_codec c_enc]. match goal with |- 1 <= zlen ?x + zlen ?y => pose proof (zlen_nonneg y); assert (zlen x = 1); [|lia] end.
  reflexivity.
Qed.
Lemma rec_size r : c_size rec_codec r = varint_size (c_size body_tuple_codec (rec_tuple r)) + c_size body_tuple_codec (rec_tuple r).
Proof. reflexivity. Qed.
Lemma mem_size_snoc l r : c_size memory_codec (l ++ [r]) = c_size memory_codec l + c_size rec_codec r.
Proof. unfold memory_codec. cbn [c_size vec_codec]. unfold vec_size. rewrite fold_left_app. reflexivity. Qed.
Lemma mem_size_nonneg l : Forall rec_ok l -> 4 + zlen l <= c_size memory_codec l.
Proof.
  induction l as [|r l IH] using rev_ind; [intros _; cbn; lia|]. intros H. apply Forall_app in H as (H & Hr). inversion Hr as [|x y Hx _]; subst.
  rewrite mem_size_snoc, zlen_app, zlen_cons, zlen_nil. specialize (IH H). rewrite rec_size.
  rewrite body_size by (apply rec_body_ok; assumption). pose proof (body_pos r). pose proof (varint_size_nonneg (zlen (rec_body r))). lia.
Qed.

Lemma stamp_ok T r off ts : pushable r -> 0 <= off < 2 ^ 31 -> 0 <= ts < 2 ^ 31 -> T < 2 ^ 31 -> c_size rec_codec (stamp off ts r) <= T ->
  rec_ok (stamp off ts r).
Proof.
  intros (A & B & C & D) O TS HT H. unfold rec_ok. cbn [stamp r_attr r_ts r_off r_headers r_val r_key].
  assert (in_s 32 ts) as I1 by (unfold in_s; change (2 ^ (32 - 1)) with (2 ^ 31); lia).
  assert (in_s 32 off) as I2 by (unfold in_s; change (2 ^ (32 - 1)) with (2 ^ 31); lia).
  split; [exact A|]. split; [exact I1|]. split; [exact I2|]. split; [exact B|]. split; [exact C|]. split; [exact D|].
  rewrite rec_size, body_size in H.
  - pose proof (varint_size_nonneg (zlen (rec_body (stamp off ts r)))). lia.
  - unfold body_ok, rec_tuple. cbn [fst snd stamp r_attr r_ts r_off r_headers r_val r_key]. tauto.
Qed.

(** * Batches *)
Definition mb_pre (k : pconf) (T : Z) (b : mbatch) : Prop :=
  Forall rec_ok (mb_recs b) /\ numbered (mb_recs b) /\ mb_size b = c_size memory_codec (mb_recs b)
  /\ T <= mb_time b < T + 2 ^ 31
  /\ (mb_recs b <> [] -> mb_raw_size b <= k_request k /\ (mb_raw_size b <= k_batch k \/ zlen (mb_recs b) = 1)).
Definition mb_ok (k : pconf) (T : Z) (b : mbatch) : Prop := mb_pre k T b /\ mb_recs b <> [].

(** nothing but the flag differs *)
Definition same_batch (b b' : mbatch) : Prop :=
  mb_id b' = mb_id b /\ mb_size b' = mb_size b /\ mb_time b' = mb_time b /\ mb_recs b' = mb_recs b.
Lemma same_batch_ok k T b b' : same_batch b b' -> mb_ok k T b -> mb_ok k T b'.
Proof. intros (A & B & C & D) H. unfold mb_ok, mb_pre, mb_raw_size in *. rewrite B, C, D. assumption. Qed.

Lemma numbered_snoc l r : numbered l -> r_off r = zlen l -> numbered (l ++ [r]).
Proof.
  unfold numbered. intros H E. rewrite map_app, app_length. cbn [length map]. rewrite seq_app, map_app, H. cbn [seq map plus]. rewrite E. reflexivity.
Qed.

Lemma mb_push_spec k T now b r b' x : conf_ok k -> mb_pre k T b -> pushable r -> T <= now < T + 2 ^ 31 ->
  mb_push k now b r = (b', x) ->
  match x with
  | Added off => off = zlen (mb_recs b) /\ mb_ok k T b' /\ mb_id b' = mb_id b /\ mb_time b' = mb_time b
                 /\ map payload_of (mb_recs b') = map payload_of (mb_recs b) ++ [payload_of r]
  | NotAdded r' => same_batch b b' /\ mb_recs b <> [] /\ payload_of r' = payload_of r /\ pushable r' /\ mb_flag b' = true
  | TooLarge _ => same_batch b b'
  end.
Proof.
  intros (KR & _) (A & N & S & TM & L) P W H. unfold mb_push in H. cbv zeta in H.
  set (r1 := stamp (zlen (mb_recs b)) (elapsed b now) r) in *.
  destruct (k_request k <? mb_raw_size b + c_size rec_codec r1) eqn:E1; [apply pair_equal_spec in H as (<- & <-); repeat split|].
  pose proof (mem_size_nonneg _ A) as MS. assert (mb_raw_size b = c_size memory_codec (mb_recs b) + 57) as RS by (unfold mb_raw_size; rewrite S; reflexivity).
  assert (rec_ok r1) as OK.
  { pose proof (zlen_nonneg (mb_recs b)). assert (zlen (mb_recs b) < 2 ^ 31) as Z1.
    { destruct (mb_recs b) as [|x0 l0] eqn:EB; [cbn; lia|]. destruct L as (L & _); [discriminate|]. lia. }
    assert (body_ok (rec_tuple r1)) as BO.
    { unfold body_ok, rec_tuple, r1. cbn [fst snd stamp r_attr r_ts r_off r_headers r_val r_key].
      destruct P as (P1 & P2 & P3 & P4). repeat split; try assumption; try apply P1; try apply P2; try apply P3; change (2 ^ (32 - 1)) with (2 ^ 31); unfold elapsed; lia. }
    assert (0 <= c_size rec_codec r1).
    { rewrite rec_size, body_size by assumption. pose proof (varint_size_nonneg (zlen (rec_body r1))). pose proof (body_pos r1). lia. }
    apply (stamp_ok (k_request k)); [assumption| | |lia|fold r1; lia]; unfold elapsed; lia. }
  assert (mb_ok k T (mkMb (mb_id b) (mb_size b + c_size rec_codec r1) true (mb_time b) (mb_recs b ++ [r1]))
          \/ (mb_recs b <> [] /\ k_batch k < mb_raw_size b + c_size rec_codec r1)) as G.
  { destruct (Z.le_gt_cases (mb_raw_size b + c_size rec_codec r1) (k_batch k)) as [LE|GT].
    - left. split; [|cbn; destruct (mb_recs b); discriminate]. unfold mb_pre. cbn [mb_recs mb_size mb_time]. unfold mb_raw_size in *. cbn [mb_size].
      split; [apply Forall_app; split; [assumption|constructor; [assumption|constructor]]|]. split; [apply numbered_snoc; [assumption|reflexivity]|].
      split; [rewrite mem_size_snoc; lia|]. split; [assumption|]. intros _. split; [lia|left; lia].
    - destruct (mb_recs b) as [|x0 l0] eqn:EB; [|right; split; [discriminate|lia]]. left. split; [|cbn; discriminate].
      unfold mb_pre. cbn [mb_recs mb_size mb_time app]. unfold mb_raw_size in *. cbn [mb_size].
      split; [constructor; [assumption|constructor]|]. split; [reflexivity|].
      split; [rewrite S, <- (mem_size_snoc [] r1); reflexivity|]. split; [assumption|]. intros _. split; [lia|right; reflexivity]. }
  assert (forall f, mb_ok k T (mkMb (mb_id b) (mb_size b + c_size rec_codec r1) true (mb_time b) (mb_recs b ++ [r1])) ->
          mb_ok k T (mkMb (mb_id b) (mb_size b + c_size rec_codec r1) f (mb_time b) (mb_recs b ++ [r1]))) as GF.
  { intros f. apply same_batch_ok. repeat split. }
  assert (map payload_of (mb_recs b ++ [r1]) = map payload_of (mb_recs b) ++ [payload_of r]) as PL by (rewrite map_app; reflexivity).
  destruct (zlen (mb_recs b) =? 0) eqn:E2.
  - apply pair_equal_spec in H as (<- & <-). cbn [mb_id mb_time mb_recs]. split; [reflexivity|]. split; [|auto].
    apply GF. destruct G as [G|(G & _)]; [assumption|]. destruct (mb_recs b); [congruence|]. rewrite zlen_cons in E2. pose proof (zlen_nonneg l). lia.
  - destruct (k_batch k <? mb_raw_size b + c_size rec_codec r1) eqn:E3; apply pair_equal_spec in H as (<- & <-).
    + split; [repeat split|]. split; [intros X; rewrite X in E2; discriminate|]. split; [reflexivity|]. split; [exact P|reflexivity].
    + cbn [mb_id mb_time mb_recs]. split; [reflexivity|]. split; [|auto]. apply GF. destruct G as [G|(_ & G)]; [assumption|]. lia.
Qed.

Lemma new_batch_pre k T id now : T <= now < T + 2 ^ 31 -> mb_pre k T (new_batch id now).
Proof. intros H. unfold mb_pre, new_batch. cbn. repeat split; try apply H; try constructor; congruence. Qed.

(** * Receipts *)
Fixpoint tickets (id i : Z) (l : list payload) : list (Z * Z * payload) :=
  match l with [] => [] | x :: t => (id, i, x) :: tickets id (i + 1) t end.
Definition tickets_of (b : mbatch) : list (Z * Z * payload) := tickets (mb_id b) 0 (map payload_of (mb_recs b)).
Fixpoint receipts (l : list pevent) (os : list (option outcome)) : list (Z * Z * payload) :=
  match l, os with
  | e :: t, o :: os' =>
      match e, o with
      | Push r _ _ _, Some (Accepted id off) => (id, off, payload_of r) :: receipts t os'
      | _, _ => receipts t os'
      end
  | _, _ => []
  end.
Lemma receipts_taken l : forall os, map snd (receipts l os) = taken l os.
Proof.
  induction l as [|e l IH]; intros [|o os]; cbn [receipts taken map]; try reflexivity.
  destruct e; try apply IH. destruct o as [[]|]; try apply IH. cbn [map snd]. f_equal. apply IH.
Qed.
Lemma receipts_in l : forall os id off x, receipt l os id off x <-> In (id, off, x) (receipts l os).
Proof.
  unfold receipt. induction l as [|e l IH]; intros [|o os] id off x; cbn [receipts].
  - split; [intros (n & r & t1 & t2 & t3 & H & _); destruct n; discriminate|intros []].
  - split; [intros (n & r & t1 & t2 & t3 & H & _); destruct n; discriminate|intros []].
  - split; [intros (n & r & t1 & t2 & t3 & _ & H & _); destruct n; discriminate|intros []].
  - split.
    + intros (n & r & t1 & t2 & t3 & H1 & H2 & ->). destruct n as [|n]; cbn [nth_error] in H1, H2.
      * inversion H1; subst. inversion H2; subst. left. reflexivity.
      * assert (In (id, off, payload_of r) (receipts l os)) as I by (apply IH; exists n, r, t1, t2, t3; auto).
        destruct e; try exact I. destruct o as [[]|]; try exact I. right. exact I.
    + intros I. assert (In (id, off, x) (receipts l os) -> exists n r t1 t2 t3, nth_error (e :: l) n = Some (Push r t1 t2 t3) /\ nth_error (o :: os) n = Some (Some (Accepted id off)) /\ x = payload_of r) as G.
      { intros J. apply IH in J as (n & r & t1 & t2 & t3 & H1 & H2 & H3). exists (S n), r, t1, t2, t3. auto. }
      destruct e; try (apply G; exact I). destruct o as [[]|]; try (apply G; exact I).
      destruct I as [[= -> -> <-]|I]; [|apply G; exact I]. exists O, r, t1, t2, t3. auto.
Qed.

Lemma tickets_app id i a : forall b, tickets id i (a ++ b) = tickets id i a ++ tickets id (i + zlen a) b.
Proof.
  revert i. induction a as [|x a IH]; intros i b; cbn [app tickets]; [rewrite zlen_nil, Z.add_0_r; reflexivity|].
  rewrite IH, zlen_cons. f_equal. f_equal. f_equal. lia.
Qed.
Lemma tickets_in id l : forall i j o x, In (j, o, x) (tickets id i l) <-> j = id /\ i <= o /\ nth_error l (Z.to_nat (o - i)) = Some x.
Proof.
  induction l as [|y l IH]; intros i j o x; cbn [tickets In].
  - split; [intros []|]. intros (_ & _ & H). destruct (Z.to_nat (o - i)); discriminate.
  - rewrite IH. split.
    + intros [[= -> -> ->]|(-> & L & H)]; [rewrite Z.sub_diag; split; [reflexivity|split; [lia|reflexivity]]|].
      split; [reflexivity|]. split; [lia|]. replace (Z.to_nat (o - i)) with (S (Z.to_nat (o - (i + 1)))) by lia. exact H.
    + intros (-> & L & H). destruct (Z.eq_dec i o) as [->|NE].
      * left. rewrite Z.sub_diag in H. inversion H. reflexivity.
      * right. split; [reflexivity|]. split; [lia|]. replace (Z.to_nat (o - i)) with (S (Z.to_nat (o - (i + 1)))) in H by lia. exact H.
Qed.

(** * Pushing into the queue *)
Definition ids_from (i : Z) (n : nat) : list Z := map (fun j => i + Z.of_nat j) (seq 0 n).

(** What a push does to a queue: accepted, the receipt is the last ticket. *)
Definition pushes (k : pconf) (T : Z) (q q' : list mbatch) (id n : Z) (o : outcome) (x : payload) : Prop :=
  Forall (mb_ok k T) q' /\ (n = 0 \/ n = 1)
  /\ map mb_id q' = map mb_id q ++ (if n =? 0 then [] else [id])
  /\ zlen q' = zlen q + n
  /\ (exists pre new, q' = pre ++ new /\ zlen new = n /\ map mb_time pre = map mb_time q)
  /\ flat_map tickets_of q' = flat_map tickets_of q ++ match o with Accepted i off => [(i, off, x)] | _ => [] end.

Lemma tickets_snoc b b' x : mb_id b' = mb_id b -> map payload_of (mb_recs b') = map payload_of (mb_recs b) ++ [x] ->
  tickets_of b' = tickets_of b ++ [(mb_id b, zlen (mb_recs b), x)].
Proof. intros I P. unfold tickets_of. rewrite I, P, tickets_app. cbn [tickets]. unfold zlen at 1. rewrite map_length. reflexivity. Qed.
Lemma same_tickets b b' : same_batch b b' -> tickets_of b' = tickets_of b.
Proof. intros (A & _ & _ & D). unfold tickets_of. rewrite A, D. reflexivity. Qed.

Lemma create_pushes k T made now q id r q' f n o : conf_ok k -> Forall (mb_ok k T) q -> pushable r ->
  T <= made < T + 2 ^ 31 -> T <= now < T + 2 ^ 31 ->
  create_batch 2 k made now q id r = (q', f, n, o) ->
  pushes k T q q' id n o (payload_of r) /\ (o = RecordTooLarge /\ q' = q /\ n = 0 \/ exists b, q' = q ++ [b] /\ mb_time b = made /\ n = 1 /\ o = Accepted id 0).
Proof.
  intros KO Q P H1 H2 H. cbn [create_batch] in H. destruct (mb_push k now (new_batch id made) r) as [b x] eqn:E.
  pose proof (mb_push_spec k T now _ r b x KO (new_batch_pre k T id made H1) P H2 E) as M. destruct x as [off|r'|sz].
  - inversion H; subst; clear H. destruct M as (-> & OK & I & TM & PL). cbn [new_batch mb_id mb_recs mb_time map app] in *.
    split; [|right; exists b; auto]. unfold pushes. split; [apply Forall_app; auto|]. split; [auto|].
    split; [rewrite map_app; cbn; rewrite I; reflexivity|]. split; [rewrite zlen_app; reflexivity|].
    split; [exists q, [b]; auto|]. rewrite flat_map_app. cbn [flat_map]. rewrite app_nil_r. f_equal. unfold tickets_of. rewrite PL, I. reflexivity.
  - destruct M as (_ & M & _). contradiction.
  - inversion H; subst. split; [|left; auto]. unfold pushes. split; [assumption|]. split; [auto|]. cbn. rewrite !app_nil_r, Z.add_0_r.
    repeat split; try reflexivity. exists q', []. rewrite app_nil_r. auto.
Qed.

Lemma accumulate_pushes k T t1 t2 t3 q id r q' f n o : conf_ok k -> Forall (mb_ok k T) q -> pushable r ->
  T <= wall t1 < T + 2 ^ 31 -> T <= wall t2 < T + 2 ^ 31 -> T <= wall t3 < T + 2 ^ 31 ->
  accumulate k t1 t2 t3 q id r = (q', f, n, o) ->
  pushes k T q q' id n o (payload_of r)
  /\ (n = 1 -> exists pre b, q' = pre ++ [b] /\ mb_time b = wall t2).
Proof.
  intros KO Q P H1 H2 H3 H. unfold accumulate in H. destruct (rev q) as [|b before] eqn:E.
  { destruct (create_pushes k T _ _ _ _ _ _ _ _ _ KO Q P H2 H3 H) as (PU & D). split; [assumption|].
    destruct D as [(_ & _ & ->)|(b & -> & TM & _)]; [discriminate|]. intros _. exists q, b. auto. }
  assert (q = rev before ++ [b]) as EQ by (rewrite <- (rev_involutive q), E; reflexivity).
  rewrite EQ in Q. pose proof Q as Q0. apply Forall_app in Q as (QB & Qb). inversion Qb as [|y z Hb _]; subst y z.
  destruct (mb_push k (wall t1) b r) as [b' x] eqn:EP.
  pose proof (mb_push_spec k T _ _ r b' x KO (proj1 Hb) P H1 EP) as M. destruct x as [off|r'|sz].
  - inversion H; subst q' f n o; clear H. destruct M as (-> & OK & I & TM & PL). split; [|discriminate].
    unfold pushes. split; [apply Forall_app; auto|]. split; [auto|]. rewrite EQ.
    split; [rewrite !map_app; cbn; rewrite I, app_nil_r; reflexivity|]. split; [rewrite !zlen_app, !zlen_cons, !zlen_nil; lia|].
    split; [exists (rev before ++ [b']), []; rewrite app_nil_r, !map_app; cbn; rewrite TM; auto|].
    rewrite !flat_map_app. cbn [flat_map]. rewrite !app_nil_r, <- app_assoc. f_equal. apply tickets_snoc; assumption.
  - destruct (create_batch 2 k (wall t2) (wall t3) (rev before ++ [b']) id r') as [[[q1 f1] n1] o1] eqn:EC.
    inversion H; subst q' f n o; clear H. destruct M as (SB & _ & PL & P' & _).
    assert (Forall (mb_ok k T) (rev before ++ [b'])) as Q' by (apply Forall_app; split; [assumption|constructor; [eapply same_batch_ok; eassumption|constructor]]).
    destruct (create_pushes k T _ _ _ _ _ _ _ _ _ KO Q' P' H2 H3 EC) as ((A & B & C & D & F & G) & X). rewrite PL in G.
    assert (map mb_id (rev before ++ [b']) = map mb_id q) as MI by (rewrite EQ, !map_app; cbn; rewrite (proj1 SB); reflexivity).
    assert (map mb_time (rev before ++ [b']) = map mb_time q) as MT by (rewrite EQ, !map_app; cbn; destruct SB as (_ & _ & -> & _); reflexivity).
    assert (flat_map tickets_of (rev before ++ [b']) = flat_map tickets_of q) as MF by (rewrite EQ, !flat_map_app; cbn; rewrite (same_tickets b b' SB); reflexivity).
    split; [|destruct X as [(_ & _ & ->)|(b0 & -> & TM & _)]; [discriminate|]; intros _; exists (rev before ++ [b']), b0; auto].
    unfold pushes. rewrite <- MI, <- MF, <- MT. split; [assumption|]. split; [assumption|]. split; [assumption|].
    split; [rewrite D, EQ, !zlen_app, !zlen_cons, !zlen_nil; lia|]. split; assumption.
  - inversion H; subst q' f n o; clear H. split; [|discriminate]. unfold pushes. split; [apply Forall_app; split; [assumption|constructor; [eapply same_batch_ok; eassumption|constructor]]|].
    split; [auto|]. rewrite EQ. split; [rewrite !map_app; cbn; rewrite (proj1 M), app_nil_r; reflexivity|]. split; [rewrite !zlen_app, !zlen_cons, !zlen_nil; lia|].
    split; [exists (rev before ++ [b']), []; rewrite app_nil_r, !map_app; cbn; destruct M as (_ & _ & -> & _); auto|].
    rewrite !flat_map_app. cbn [flat_map]. rewrite (same_tickets b b' M), !app_nil_r. reflexivity.
Qed.

(** * Batches on the wire *)
Lemma mb_count k T b : conf_ok k -> mb_ok k T b -> 0 < zlen (mb_recs b) < 2 ^ 31.
Proof.
  intros (KR & _) ((A & _ & S & _ & L) & NE). destruct (L NE) as (L1 & _). unfold mb_raw_size in L1. rewrite S in L1. pose proof (mem_size_nonneg _ A).
  change BATCH_FILE_HEADER_SIZE with 57 in L1. split; [|lia]. destruct (mb_recs b); [congruence|]. rewrite zlen_cons. pose proof (zlen_nonneg l). lia.
Qed.
Lemma mb_delta k T b : conf_ok k -> mb_ok k T b ->
  wrap_s 32 (if 0 <? zlen (mb_recs b) then zlen (mb_recs b) - 1 else zlen (mb_recs b)) = zlen (mb_recs b) - 1.
Proof.
  intros KO H. pose proof (mb_count _ _ _ KO H). replace (0 <? zlen (mb_recs b)) with true by lia.
  apply wrap_s_id; [lia|]. unfold in_s. change (2 ^ (32 - 1)) with (2 ^ 31). lia.
Qed.
Lemma mb_batch_ok k T b : conf_ok k -> 0 <= T < 2 ^ 62 -> mb_ok k T b -> mem_batch_ok (mb_batch b).
Proof.
  intros KO HT H. pose proof (mb_count _ _ _ KO H) as CNT. pose proof (mb_delta _ _ _ KO H) as D.
  destruct H as ((A & _ & S & TM & L) & NE). destruct (L NE) as (L1 & _). unfold mb_raw_size in L1. change BATCH_FILE_HEADER_SIZE with 57 in L1.
  assert (records_ok (mb_recs b)) as RO by (split; [assumption|lia]).
  unfold mem_batch_ok, batch_ok, mb_batch. cbn [b_base b_schema b_hdr b_recs]. rewrite D.
  split; [unfold in_s; change (2 ^ (64 - 1)) with (2 ^ 63); lia|]. split; [vm_compute; split; congruence|]. split.
  - assert (exists ts, match rev (mb_recs b) with [] => 0 | r :: _ => mb_time b + r_ts r end = ts /\ in_s 64 ts) as (ts & -> & HTS).
    { destruct (rev (mb_recs b)) as [|r l] eqn:E; [exists 0; split; [reflexivity|vm_compute; split; congruence]|]. eexists. split; [reflexivity|].
      assert (In r (mb_recs b)) as I by (apply in_rev; rewrite E; left; reflexivity). rewrite Forall_forall in A. destruct (A _ I) as (_ & R & _).
      unfold in_s in *. change (2 ^ (32 - 1)) with (2 ^ 31) in R. change (2 ^ (64 - 1)) with (2 ^ 63). lia. }
    unfold header_ok, set_compression, with_attr. cbn [h_epoch h_magic h_crc h_attr h_last_delta h_first_ts h_max_ts h_pid h_pepoch h_seq].
    split; [vm_compute; split; congruence|]. split; [vm_compute; split; congruence|]. split; [vm_compute; split; congruence|].
    split; [unfold in_s; change (2 ^ (32 - 1)) with (2 ^ 31); lia|]. split; [unfold in_s; change (2 ^ (64 - 1)) with (2 ^ 63); lia|].
    split; [assumption|]. split; [vm_compute; split; congruence|]. split; vm_compute; split; congruence.
  - split; [assumption|]. rewrite <- mem_size by assumption. destruct KO. lia.
Qed.
Lemma mb_memory k T b : conf_ok k -> 0 <= T < 2 ^ 62 -> mb_ok k T b ->
  exists m, to_memory (to_raw (mb_batch b)) = Ok m /\ b_recs m = mb_recs b.
Proof.
  intros KO HT H. pose proof (mb_batch_ok _ _ _ KO HT H) as OK.
  destruct (to_memory_prefix (mb_batch b) (to_raw (mb_batch b)) (b_recs (mb_batch b)) OK) as (m & E & _ & _ & _ & F).
  - exists (zlen (c_enc memory_codec (b_recs (mb_batch b)))). rewrite ztake_all by lia. reflexivity.
  - reflexivity.
  - exists m. split; [exact E|]. apply F. reflexivity.
Qed.
Lemma mb_carried k T b : conf_ok k -> 0 <= T < 2 ^ 62 -> mb_ok k T b -> carried (to_raw (mb_batch b)) = map payload_of (mb_recs b).
Proof. intros KO HT H. destruct (mb_memory _ _ _ KO HT H) as (m & E & R). unfold carried. rewrite E, R. reflexivity. Qed.
Lemma mb_wire_size k T b : conf_ok k -> 0 <= T < 2 ^ 62 -> mb_ok k T b -> zlen (batch_enc raw_codec (to_raw (mb_batch b))) = mb_raw_size b.
Proof.
  intros KO HT H. pose proof (mb_batch_ok _ _ _ KO HT H) as OK. pose proof (to_raw_ok _ OK) as RO.
  rewrite raw_batch_size by assumption. change (has_schema (b_hdr (to_raw (mb_batch b)))) with false. cbv iota.
  destruct H as ((A & _ & S & _) & _). unfold mb_raw_size. rewrite S. destruct OK as (_ & _ & _ & RCS & _).
  change (mb_recs b) with (b_recs (mb_batch b)). rewrite mem_size by assumption. unfold batch_size. cbn [raw_codec c_size to_raw b_recs]. lia.
Qed.

(** * Flushing *)
Lemma take_ready_split k force now q : forall x y, take_ready k force now q = (x, y) -> q = x ++ y.
Proof.
  induction q as [|b q IH]; intros x y; cbn [take_ready]; [intros [= <- <-]; reflexivity|].
  destruct (force || mb_full k b || (k_linger k <=? elapsed b now)); [|intros [= <- <-]; reflexivity].
  destruct (take_ready k force now q) as [x1 y1]. intros [= <- <-]. cbn [app]. f_equal. apply IH. reflexivity.
Qed.
Lemma with_retry_spec l : forall n c x, with_retry n l = (c, x) ->
  (c <= S n)%nat /\ match x with Some rs => (1 <= c)%nat /\ exists z, In (mkAttempt z (Replied rs)) l | None => True end.
Proof.
  induction l as [|[z a] l IH]; intros n c x; cbn [with_retry a_reached a_answer]; [intros H; apply pair_equal_spec in H as (<- & <-); split; [lia|exact I]|].
  destruct a as [rs| |].
  - intros [= <- <-]. split; [lia|]. split; [lia|]. exists z. left. reflexivity.
  - destruct n as [|n]; [intros [= <- <-]; split; [destruct z; lia|exact I]|].
    destruct (with_retry n l) as [m y] eqn:E. intros [= <- <-]. specialize (IH _ _ _ E) as (A & B). split; [destruct z; lia|].
    destruct y as [rs|]; [|exact I]. destruct B as (B & w & C). split; [lia|]. exists w. right. assumption.
  - intros [= <- <-]. split; [destruct z; lia|exact I].
Qed.
Lemma send_copies k n l c x : send_request k n l = (c, x) -> (c <= most (k_delivery k))%nat.
Proof.
  unfold send_request. destruct (k_delivery k) as [|r].
  - destruct l as [|[z a] l]; [intros [= <- _]; cbn; lia|]. cbn [a_answer a_reached most].
    destruct a; intros [= <- _]; destruct z; lia.
  - destruct (with_retry r l) as [m y] eqn:E. intros [= <- _]. apply (with_retry_spec _ _ _ _ E).
Qed.
Lemma notify_ids ids : forall l, map fst (notify_all ids l) = ids.
Proof. induction ids as [|i ids IH]; intros [|x l]; cbn [notify_all map fst]; f_equal; apply IH. Qed.
Lemma notify_nth ids : forall l i x, In (i, x) (notify_all ids l) -> exists n, nth_error ids n = Some i /\ match nth_error l n with Some y => x = y | None => x = NoAnswer end.
Proof.
  induction ids as [|j ids IH]; intros l i x; cbn [notify_all]; [intros []|]. destruct l as [|y l]; intros [[= -> <-]|H].
  - exists O. cbn. auto.
  - destruct (IH _ _ _ H) as (n & A & B). exists (S n). cbn. split; [assumption|]. destruct n; exact B.
  - exists O. cbn. auto.
  - destruct (IH _ _ _ H) as (n & A & B). exists (S n). cbn. auto.
Qed.

(** * The state after any run *)

(** Where an answer without error comes from. *)
Definition sourced (s : pstate) (done : list mbatch) : Prop := forall id base, In (id, Answer base NoError) (s_notes s) ->
  exists q a rs z i b, In (q, a) (s_sent s) /\ In (mkAttempt z (Replied rs)) a
    /\ nth_error q i = Some (to_raw (mb_batch b)) /\ nth_error rs i = Some (base, NoError) /\ In b done /\ mb_id b = id.
Definition at_least (k : pconf) : Prop := match k_delivery k with AtLeastOnce _ => True | AtMostOnce => False end.

Record INV (k : pconf) (T : Z) (s : pstate) (acc : list (Z * Z * payload)) (done : list mbatch) : Prop := mkINV {
  I_done : Forall (mb_ok k T) done;
  I_queue : Forall (mb_ok k T) (s_queue s);
  I_ids : map mb_id (done ++ s_queue s) = map Z.of_nat (seq 0 (length (done ++ s_queue s)));
  I_next : s_next s = zlen (done ++ s_queue s);
  I_sent : flat_map fst (s_sent s) = map (fun b => to_raw (mb_batch b)) done;
  I_acc : flat_map tickets_of (done ++ s_queue s) = acc;
  I_notes : map fst (s_notes s) = map mb_id done;
  I_bound : zlen (s_queue s) <= k_queue k;
  I_wire : exists copies, length copies = length (s_sent s) /\ Forall (fun c => (c <= most (k_delivery k))%nat) copies
           /\ s_wire s = flat_map (fun p => repeat (fst (fst p)) (snd p)) (combine (s_sent s) copies);
  I_source : at_least k -> sourced s done;
}.

Lemma INV_start k T : conf_ok k -> INV k T producer0 [] [].
Proof.
  intros KO. constructor; try reflexivity; try constructor.
  - destruct KO as (_ & H & _). exact H.
  - exists []. auto.
  - intros _ id base [].
Qed.

Lemma INV_same k T s s' acc done : s_queue s' = s_queue s -> s_next s' = s_next s -> s_sent s' = s_sent s -> s_wire s' = s_wire s -> s_notes s' = s_notes s ->
  INV k T s acc done -> INV k T s' acc done.
Proof.
  intros A B C D E []. constructor; unfold sourced in *; rewrite ?A, ?B, ?C, ?D, ?E; assumption.
Qed.

Lemma snoc_ids l id n : map mb_id l = map Z.of_nat (seq 0 (length l)) -> id = zlen l -> n = S (length l) ->
  map mb_id l ++ [id] = map Z.of_nat (seq 0 n).
Proof. intros H -> ->. replace (S (length l)) with (length l + 1)%nat by lia. rewrite seq_app, map_app, H. reflexivity. Qed.

Lemma INV_push k T t1 t2 t3 s r s' o acc done : conf_ok k -> 0 <= T -> pushable r ->
  T <= wall t1 < T + 2 ^ 31 -> T <= wall t2 < T + 2 ^ 31 -> T <= wall t3 < T + 2 ^ 31 ->
  INV k T s acc done -> push k t1 t2 t3 s r = (s', o) ->
  INV k T s' (acc ++ match o with Accepted i off => [(i, off, payload_of r)] | _ => [] end) done.
Proof.
  intros KO HT P H1 H2 H3 IV H. unfold push in H. destruct (s_error s).
  { injection H as <- <-. rewrite app_nil_r. assumption. }
  destruct (k_queue k <=? zlen (s_queue s)) eqn:QF.
  { injection H as <- <-. rewrite app_nil_r. assumption. }
  destruct (accumulate k t1 t2 t3 (s_queue s) (s_next s) r) as [[[q f] n] o1] eqn:E. injection H as <- <-.
  destruct IV as [D Q ID NX SE AC NO BD WI SO].
  destruct (accumulate_pushes k T t1 t2 t3 _ _ _ _ _ _ _ KO Q P H1 H2 H3 E) as ((A & B & C & LN & _ & G) & _).
  assert (length q = (length (s_queue s) + Z.to_nat n)%nat) as LQ by (unfold zlen in LN; lia).
  constructor; cbn [s_queue s_next s_sent s_notes s_wire]; try assumption.
  - rewrite map_app, C, app_assoc, <- map_app, app_length, LQ. destruct B as [->| ->]; cbn [Z.eqb].
    + rewrite app_nil_r, ID, app_length. f_equal. f_equal. lia.
    + apply snoc_ids; [assumption|rewrite NX; reflexivity|rewrite app_length; lia].
  - rewrite zlen_app, LN, NX, zlen_app. lia.
  - rewrite flat_map_app, G, app_assoc, <- flat_map_app, AC. reflexivity.
  - lia.
Qed.

Lemma INV_flush k T force now l timer a b c s acc done : INV k T s acc done ->
  exists done', INV k T (flush k force now l timer a b c s) acc done'.
Proof.
  intros IV. unfold flush. destruct l as [|a0 l0]; [exists done; eapply INV_same; [..|exact IV]; reflexivity|]. remember (a0 :: l0) as l eqn:EL. clear a0 l0 EL.
  destruct (take_ready k force (wall now) (s_queue s)) as [ready rest] eqn:E.
  destruct (send_request k (length ready) l) as [cp x] eqn:SR. apply take_ready_split in E.
  destruct IV as [D Q ID NX SE AC NO BD WI SO]. exists (done ++ ready). rewrite E in *. apply Forall_app in Q as (Q1 & Q2).
  constructor; cbn [s_queue s_next s_sent s_notes s_wire].
  - apply Forall_app. auto.
  - assumption.
  - rewrite <- app_assoc. assumption.
  - rewrite <- app_assoc. assumption.
  - rewrite flat_map_app, SE, map_app. cbn [flat_map fst]. rewrite app_nil_r. reflexivity.
  - rewrite <- app_assoc. assumption.
  - rewrite map_app, NO, map_app, notify_ids. reflexivity.
  - rewrite zlen_app in BD. pose proof (zlen_nonneg ready). lia.
  - destruct WI as (cs & LC & FC & W). exists (cs ++ [cp]). split; [rewrite !app_length, LC; reflexivity|].
    split; [apply Forall_app; split; [assumption|constructor; [eapply send_copies; exact SR|constructor]]|].
    assert (combine (s_sent s ++ [(map (fun b0 => to_raw (mb_batch b0)) ready, l)]) (cs ++ [cp]) = combine (s_sent s) cs ++ [((map (fun b0 => to_raw (mb_batch b0)) ready, l), cp)]) as ->.
    { clear - LC. revert cs LC. induction (s_sent s) as [|y t IH]; intros [|z cs]; cbn [length app combine]; try discriminate; [reflexivity|]. intros H. f_equal. apply IH. lia. }
    rewrite flat_map_app, W. cbn [flat_map fst snd]. rewrite app_nil_r. reflexivity.
  - intros AL id base IN. cbn [s_notes s_sent] in *. apply in_app_or in IN as [IN|IN].
    + destruct (SO AL _ _ IN) as (q & a0 & rs & z & i & b0 & X1 & X2 & X3 & X4 & X5 & X6). exists q, a0, rs, z, i, b0.
      repeat split; try assumption; apply in_or_app; left; assumption.
    + apply notify_nth in IN as (n & N1 & N2). unfold send_request in SR. unfold at_least in AL. destruct (k_delivery k) as [|rt]; [contradiction|].
      destruct (with_retry rt l) as [m y] eqn:WR. injection SR as <- <-. destruct y as [rs|]; [|destruct n; discriminate].
      apply with_retry_spec in WR as (_ & _ & z & INR). rewrite nth_error_map in N2. destruct (nth_error rs n) as [[bs e]|] eqn:NR; [|discriminate].
      cbn in N2. injection N2 as <- <-. rewrite nth_error_map in N1. destruct (nth_error ready n) as [b0|] eqn:NB; [|discriminate]. cbn in N1. injection N1 as <-.
      exists (map (fun b1 => to_raw (mb_batch b1)) ready), l, rs, z, n, b0.
      split; [apply in_or_app; right; left; reflexivity|]. split; [assumption|]. split; [rewrite nth_error_map, NB; reflexivity|]. split; [assumption|].
      split; [apply in_or_app; right; eapply nth_error_In; exact NB|reflexivity].
Qed.

Lemma INV_run k T l : conf_ok k -> 0 <= T -> events_ok T l -> forall s acc done s' os, INV k T s acc done -> prun k s l = (s', os) ->
  exists done', INV k T s' (acc ++ receipts l os) done'.
Proof.
  intros KO HT. induction l as [|e l IH]; intros OK s acc done s' os IV H; cbn [prun] in H.
  { injection H as <- <-. exists done. cbn. rewrite app_nil_r. assumption. }
  inversion OK as [|e0 l0 (CL & PO) OK']; subst e0 l0.
  destruct (pstep k s e) as [s1 o] eqn:ES. destruct (prun k s1 l) as [s2 os2] eqn:ER. injection H as <- <-.
  assert (exists done1, INV k T s1 (acc ++ match e, o with Push r _ _ _, Some (Accepted id off) => [(id, off, payload_of r)] | _, _ => [] end) done1) as (done1 & IV1).
  { destruct e as [r t1 t2 t3| | |t|t a|t a|t a]; cbn [pstep] in ES.
    - destruct (push k t1 t2 t3 s r) as [s0 o0] eqn:EP. injection ES as <- <-. exists done.
      cbn [readings_of] in CL. inversion CL as [|? ? (_ & C1) CL1]; subst. inversion CL1 as [|? ? (_ & C2) CL2]; subst. inversion CL2 as [|? ? (_ & C3) _]; subst.
      pose proof (INV_push k T t1 t2 t3 _ _ _ _ _ _ KO HT PO C1 C2 C3 IV EP) as G. destruct o0; exact G.
    - injection ES as <- <-. exists done. rewrite app_nil_r. eapply INV_same; [..|exact IV]; reflexivity.
    - injection ES as <- <-. exists done. rewrite app_nil_r. eapply INV_same; [..|exact IV]; reflexivity.
    - injection ES as <- <-. exists done. rewrite app_nil_r. destruct (0 <? s_new s); [|assumption]. eapply INV_same; [..|exact IV]; reflexivity.
    - injection ES as <- <-. rewrite app_nil_r. destruct (0 <? s_full s); [|exists done; assumption]. eapply INV_flush; exact IV.
    - injection ES as <- <-. rewrite app_nil_r. destruct (0 <? s_flush s); [|exists done; assumption]. eapply INV_flush; exact IV.
    - injection ES as <- <-. rewrite app_nil_r. destruct (s_timer s) as [d|]; [|exists done; assumption].
      destruct (d <=? mono t); [|exists done; assumption]. eapply INV_flush; exact IV. }
  destruct (IH OK' _ _ _ _ _ IV1 ER) as (done2 & IV2). exists done2. rewrite <- app_assoc in IV2.
  assert (receipts (e :: l) (o :: os2) = match e, o with Push r _ _ _, Some (Accepted id off) => [(id, off, payload_of r)] | _, _ => [] end ++ receipts l os2) as ->; [|exact IV2].
  cbn [receipts]. destruct e; try reflexivity. destruct o as [[]|]; reflexivity.
Qed.
