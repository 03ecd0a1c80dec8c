(** The storage properties, proved from the invariants of [ReplicaProofs]. *)
From Verif Require Import ListFacts WireProofs RecordModel RecordSpec RecordProofs StorageModel StorageSpec StorageProofs ReplicaProofs CheckpointModel CheckpointSpec.

(** * C12 *)
Lemma contiguous c r : config_ok c -> reached c r -> exists bs, stores r bs.
Proof. intros CO R. destruct (reached_inv _ _ CO R) as (L & I). exists L. apply (inv_stores _ _ _ I). Qed.

Lemma write_recordset_at c now s r ls act l upd r' res : config_ok c -> inv_at c s r ls act -> Forall raw_batch_ok l -> room r l ->
  write_recordset c now r l upd = (r', res) ->
  exists n ls' act', inv_at c s r' ls' act' /\ (n <= length l)%nat
    /\ concat ls' ++ act' = (concat ls ++ act) ++ number (get_leo r) (firstn n l)
    /\ get_leo r' = get_leo r + total (firstn n l)
    /\ match res with
       | None => n = length l /\ get_hw r' = (if upd then get_leo r' else get_hw r)
       | Some _ => (l = [] \/ (n < length l)%nat) /\ get_hw r' = get_hw r
       end.
Proof.
  intros CO I OK R W. unfold write_recordset in W. destruct (check_limits c l) as [e|] eqn:CL.
  - inversion W; subst. exists 0%nat, ls, act. cbn [firstn number total]. rewrite app_nil_r.
    split; [assumption|]. split; [lia|]. split; [reflexivity|]. split; [lia|]. split; [|reflexivity]. destruct l; [left; reflexivity|right; cbn; lia].
  - destruct (write_batches c now r l) as [r1 res1] eqn:WB.
    destruct (write_batches_at _ _ _ _ _ _ _ _ _ CO I OK CL R WB) as (n & ls' & act' & I' & MB & HW & N & F & LEO & POS & D).
    exists n, ls', act'. destruct res1 as [e|]; inversion W; subst.
    + split; [assumption|]. split; [assumption|]. split; [assumption|]. split; [assumption|]. destruct D as (D & _). split; [right; assumption|assumption].
    + assert (get_leo (if upd then update_hw r1 (get_leo r1) else r1) = get_leo r1) as E by (destruct upd; reflexivity).
      split; [destruct upd; [apply update_hw_at|]; assumption|]. split; [assumption|]. split; [assumption|]. rewrite E. split; [assumption|].
      destruct D as (D & _). split; [assumption|]. destruct upd; [reflexivity|assumption].
Qed.
Lemma log_bytes_at c s r ls act : inv_at c s r ls act -> log_bytes r = flat_map renc (concat ls ++ act).
Proof. intros I. apply (inv_stores c r (concat ls ++ act)). exists s, ls, act. auto. Qed.

Lemma append_contiguous c r now l upd r' : config_ok c -> reached c r -> Forall raw_batch_ok l -> room r l ->
  write_recordset c now r l upd = (r', None) ->
  log_bytes r' = log_bytes r ++ flat_map renc (number (get_leo r) l)
  /\ get_leo r' = get_leo r + total l /\ get_log_start r' = get_log_start r
  /\ get_hw r' = (if upd then get_leo r' else get_hw r).
Proof.
  intros CO R OK RM W. destruct (reached_inv _ _ CO R) as (L & s & ls & act & _ & I).
  destruct (write_recordset_at _ _ _ _ _ _ _ _ _ _ CO I OK RM W) as (n & ls' & act' & I' & N & F & LEO & -> & HW).
  rewrite firstn_all in *. rewrite (log_bytes_at _ _ _ _ _ I), (log_bytes_at _ _ _ _ _ I'), F, flat_map_app.
  rewrite (log_start_ok _ _ _ _ _ I), (log_start_ok _ _ _ _ _ I'). auto.
Qed.
Lemma failed_append_prefix c r now l upd r' e : config_ok c -> reached c r -> Forall raw_batch_ok l -> room r l ->
  write_recordset c now r l upd = (r', Some e) ->
  exists n, (n < length l)%nat /\ log_bytes r' = log_bytes r ++ flat_map renc (number (get_leo r) (firstn n l))
  /\ get_leo r' = get_leo r + total (firstn n l) /\ get_log_start r' = get_log_start r /\ get_hw r' = get_hw r.
Proof.
  intros CO R OK RM W. destruct (reached_inv _ _ CO R) as (L & s & ls & act & _ & I).
  destruct (write_recordset_at _ _ _ _ _ _ _ _ _ _ CO I OK RM W) as (n & ls' & act' & I' & N & F & LEO & [-> | N'] & HW).
  - discriminate W.
  - exists n. rewrite (log_bytes_at _ _ _ _ _ I), (log_bytes_at _ _ _ _ _ I'), F, flat_map_app.
    rewrite (log_start_ok _ _ _ _ _ I), (log_start_ok _ _ _ _ _ I'). auto.
Qed.
(** Without batches without records or with a schema id, in a replica no write
    of which has failed before, everything within the limits is stored. *)
Lemma append_succeeds c r now l upd : config_ok c -> reached c r -> Forall raw_batch_ok l -> room r l ->
  check_limits c l = None -> r_short r = false ->
  Forall (fun b => 0 < records_len b /\ has_schema (b_hdr b) = false) l ->
  exists r', write_recordset c now r l upd = (r', None) /\ r_short r' = false.
Proof.
  intros CO R OK RM CL SH G. destruct (reached_inv _ _ CO R) as (L & s & ls & act & _ & I).
  unfold write_recordset. rewrite CL. destruct (write_batches c now r l) as [r1 res] eqn:WB.
  destruct (write_batches_at _ _ _ _ _ _ _ _ _ CO I OK CL RM WB) as (n & ls' & act' & I' & MB & HW & N & F & LEO & POS & D).
  destruct res as [e|].
  - exfalso. destruct D as (_ & [(_ & S & _)|(_ & b & NB & D)]); [congruence|].
    apply nth_error_In in NB. rewrite Forall_forall in G. destruct (G b NB) as (G1 & G2).
    destruct D as [(_ & D & _)|(_ & D & _)]; [lia|congruence].
  - destruct D as (_ & D). exists (if upd then update_hw r1 (get_leo r1) else r1). split; [reflexivity|]. destruct upd; cbn [update_hw r_short]; congruence.
Qed.

(** * C13 *)
Lemma chain_unique s L e b b' o : chain s L e -> In b L -> In b' L -> contains b o -> contains b' o -> b = b'.
Proof.
  intros CH I1 I2 C1 C2. apply in_split in I1 as (a & t & ->). apply in_split in I2 as (a' & t' & E).
  destruct (Z.le_ge_cases (b_base b) (b_base b')).
  - destruct (split_order s e o o a b t a' b' t' CH E C1 C2 ltac:(lia)) as (mid & -> & E2).
    destruct mid as [|x mid]; [inversion E2; reflexivity|]. inversion E2; subst x t. exfalso.
    apply chain_split in CH as (m & _ & H2). cbn [chain] in H2. destruct H2 as (B & _ & H2). rewrite <- app_comm_cons in *. 
    apply chain_split in H2 as (m2 & H3 & H4). apply chain_le in H3. cbn [chain] in H4. destruct H4 as (B' & _). unfold contains in *. lia.
  - rewrite E in CH.
    destruct (split_order s e o o a' b' t' a b t CH (eq_sym E) C2 C1 ltac:(lia)) as (mid & -> & E2).
    destruct mid as [|x mid]; [inversion E2; reflexivity|]. inversion E2; subst x t'. exfalso.
    apply chain_split in CH as (m & _ & H2). cbn [chain] in H2. destruct H2 as (B & _ & H2). rewrite <- app_comm_cons in *.
    apply chain_split in H2 as (m2 & H3 & H4). apply chain_le in H3. cbn [chain] in H4. destruct H4 as (B' & _). unfold contains in *. lia.
Qed.
Lemma step_keeps c a r r' L L' b o : step_to c a r r' L L' -> In b L -> contains b o -> get_log_start r' <= o -> In b L'.
Proof.
  intros (dr & kept & new & -> & -> & CH & _) IN CT LE. apply in_or_app. left. apply in_app_or in IN as [IN|IN]; [|assumption].
  exfalso. pose proof (chain_below _ _ _ CH b IN). unfold contains in CT. lia.
Qed.
Lemma steps_keep c P r r' : config_ok c -> steps c P r r' -> forall L, inv c r L ->
  exists L', inv c r' L' /\ get_log_start r <= get_log_start r' /\ get_leo r <= get_leo r'
    /\ forall b o, In b L -> contains b o -> get_log_start r' <= o -> In b L'.
Proof.
  intros CO ST. induction ST as [r|r r1 r2 a ST IH OK HP EX]; intros L I.
  - exists L. split; [assumption|]. split; [lia|]. split; [lia|]. auto.
  - destruct (IH _ I) as (L1 & I1 & LS & LE & K1). destruct (step _ _ _ _ _ CO I1 OK EX) as (L2 & I2 & S2).
    exists L2. split; [assumption|]. pose proof S2 as (dr & kept & new & _ & _ & C1 & C2 & _). apply chain_le in C1, C2.
    split; [lia|]. split; [lia|]. intros b o IN CT LO. eapply step_keeps; [exact S2| |eassumption|assumption]. eapply K1; [eassumption|eassumption|lia].
Qed.
Lemma immutable c r r' o : config_ok c -> reached c r -> steps c anything r r' ->
  get_log_start r' <= o < get_leo r ->
  exists b, contains b o /\ forall n, zlen (renc b) <= n ->
    begins_with (read_partition_slice r o n ReadUncommitted) (renc b)
    /\ begins_with (read_partition_slice r' o n ReadUncommitted) (renc b).
Proof.
  intros CO R ST Ho. destruct (reached_inv _ _ CO R) as (L & I).
  destruct (steps_keep _ _ _ _ CO ST _ I) as (L' & I' & LS & LE & K).
  destruct (read_uncommitted c r L o 0 CO I ltac:(lia)) as (pre & b & post & rest & E & CT & _ & _).
  exists b. split; [assumption|]. intros n Hn.
  assert (forall r0 L0, inv c r0 L0 -> In b L0 -> get_log_start r0 <= o < get_leo r0 -> begins_with (read_partition_slice r0 o n ReadUncommitted) (renc b)) as B.
  { intros r0 L0 I0 IN Ho0. destruct (read_uncommitted c r0 L0 o n CO I0 Ho0) as (pre0 & b0 & post0 & rest0 & E0 & CT0 & RD & _).
    destruct (inv_stores _ _ _ I0) as ((_ & CH) & _).
    assert (b0 = b) as ->. { eapply (chain_unique _ _ _ _ _ _ CH); [rewrite E0; apply in_or_app; right; left; reflexivity|exact IN|exact CT0|exact CT]. }
    rewrite RD. exists (get_log_start r0), (get_hw r0), (get_leo r0), (ztake (n - zlen (renc b)) (flat_map renc post0)).
    cbn [flat_map]. rewrite ztake_app_ge by assumption. reflexivity. }
  assert (In b L) as IN by (rewrite E; apply in_or_app; right; left; reflexivity).
  split; [apply (B r L); [assumption|assumption|lia]|]. apply (B r' L'); [assumption|eapply K; [exact IN|exact CT|lia]|lia].
Qed.

(** * C14, C15 *)
Lemma reads_exact c r : config_ok c -> reached c r ->
  exists bs, stores r bs /\
  (forall o n, get_log_start r <= o < get_leo r ->
     exists pre b post rest, bs = pre ++ (b :: post) ++ rest /\ contains b o
       /\ read_partition_slice r o n ReadUncommitted
          = Done (mkSlice (get_log_start r) (get_hw r) (get_leo r) (Some (ztake n (flat_map renc (b :: post)))))
       /\ (rest = [] \/ exists q, In q (seg_bases r) /\ chain q rest (get_leo r)))
  /\ (forall o n, get_log_start r <= o < get_leo r -> o <= get_hw r ->
     exists pre sel rest p q, bs = pre ++ sel ++ rest
       /\ chain (get_log_start r) pre p /\ chain p sel q /\ chain q rest (get_leo r) /\ q <= get_hw r
       /\ (exists b t, sel ++ rest = b :: t /\ contains b o)
       /\ read_partition_slice r o n ReadCommitted
          = Done (mkSlice (get_log_start r) (get_hw r) (get_leo r) (Some (ztake n (flat_map renc sel))))
       /\ ((sel <> [] /\ (rest = [] \/ In q (seg_bases r))) \/ exists b t, rest = b :: t /\ contains b (get_hw r))).
Proof.
  intros CO R. destruct (reached_inv _ _ CO R) as (L & I). exists L. split; [apply (inv_stores _ _ _ I)|]. split.
  - intros o n. apply (read_uncommitted c r L o n CO I).
  - intros o n. apply (read_committed c r L o n CO I).
Qed.
Lemma reads_outside c r o n iso : config_ok c -> reached c r ->
  (o < get_log_start r -> read_partition_slice r o n iso = Fail (OffsetEvicted o (get_log_start r)))
  /\ (o = get_leo r -> read_partition_slice r o n iso = Done (mkSlice (get_log_start r) (get_hw r) (get_leo r) None))
  /\ (get_leo r < o -> read_partition_slice r o n iso = Fail Other).
Proof.
  intros CO R. destruct (reached_inv _ _ CO R) as (L & I).
  split; [apply (read_below _ _ _ _ _ _ I)|]. split; [intros ->; apply (read_at_end _ _ _ _ _ I)|apply (read_beyond _ _ _ _ _ _ I)].
Qed.

Lemma committed_only c r o n sl : config_ok c -> reached c r -> o <= get_hw r \/ o < m_base (r_active r) ->
  read_partition_slice r o n ReadCommitted = Done sl ->
  sl_bytes sl = None \/ sl_bytes sl = Some [] \/
  exists bs pre sel rest p q, stores r bs /\ bs = pre ++ sel ++ rest /\ chain (get_log_start r) pre p /\ chain p sel q
    /\ q <= get_hw r /\ sl_bytes sl = Some (ztake n (flat_map renc sel)).
Proof.
  intros CO R H RD. destruct (reached_inv _ _ CO R) as (L & I). destruct (inv_stores _ _ _ I) as (ST & _).
  destruct (Z.lt_ge_cases o (get_log_start r)) as [H1|H1]; [rewrite (read_below _ _ _ _ _ _ I H1) in RD; discriminate|].
  destruct (Z.lt_ge_cases (get_leo r) o) as [H2|H2]; [rewrite (read_beyond _ _ _ _ _ _ I H2) in RD; discriminate|].
  destruct (Z.eq_dec o (get_leo r)) as [->|H3]; [rewrite (read_at_end _ _ _ _ _ I) in RD; inversion RD; subst; left; reflexivity|].
  right. destruct (Z.le_gt_cases o (get_hw r)) as [H4|H4].
  - right. destruct (read_committed c r L o n CO I ltac:(lia) H4) as (pre & sel & rest & p & q & E & C1 & C2 & C3 & Q & _ & RD' & _).
    rewrite RD' in RD. inversion RD; subst sl. exists L, pre, sel, rest, p, q. cbn [sl_bytes].
    split; [assumption|]. split; [assumption|]. split; [assumption|]. split; [assumption|]. split; [assumption|]. reflexivity.
  - left. destruct H as [H|H]; [lia|].
    destruct I as (s & ls & act & -> & I). pose proof (log_start_ok _ _ _ _ _ I) as LS. rewrite LS in *.
    destruct (locate _ _ _ _ _ o I ltac:(lia)) as (before & l & after & b0 & e & closed & ipos & E & C1 & C2 & C3 & Q & OK & SP & SZ & IP & AF & BB & CL & CN & RDL).
    destruct (chain_find _ _ _ o C2 Q) as (a & b & t & El & CT & CA).
    unfold read_partition_slice in RD. rewrite RDL in RD. rewrite CL in RD. replace (m_base (r_active r) <=? o) with false in RD by lia. cbn [negb] in RD.
    destruct CO as ((_ & CS) & _).
    destruct (slice_closed_before b0 e l ipos o (get_hw r) a b t OK C2) as [F|F]; try assumption; try (change (2^31) with 2147483648 in *; change (2^32) with 4294967296; lia); rewrite F in RD; [discriminate|].
    inversion RD; subst sl. cbn [sl_bytes]. f_equal. unfold take_slice, slice_bytes. cbn [fst snd]. apply ztake_neg. lia.
Qed.

(** * C16 *)
Lemma no_index_ok base l e : chain base l e -> ipos_ok base l (fun _ => 0).
Proof. intros CH d Hd. exists [], l, 0. split; [reflexivity|]. split; [reflexivity|]. cbn [chain]. lia. Qed.
Lemma lookup_is_scan base e l ipos o : Forall raw_batch_ok l -> chain base l e -> e - base < 2 ^ 31 -> ipos_ok base l ipos ->
  find_offset_position base e (encs l) ipos o = find_offset_position base e (encs l) (fun _ => 0) o
  /\ (base <= o < e -> exists a b t, l = a ++ b :: t /\ contains b o /\ find_offset_position base e (encs l) ipos o = Done (Some (zlen (encs a)))).
Proof.
  intros OK CH SP IP. assert (e - base < 2 ^ 32) as SP' by (change (2^31) with 2147483648 in *; change (2^32) with 4294967296; lia).
  destruct (Z.lt_ge_cases o base) as [H|H].
  { split; [|lia]. unfold find_offset_position. replace (o <? base) with true by lia. reflexivity. }
  destruct (Z.le_gt_cases e o) as [H1|H1].
  { split; [|lia]. unfold find_offset_position. replace (o <? base) with false by lia. replace (e <=? o) with true by lia. reflexivity. }
  destruct (chain_find _ _ _ o CH ltac:(lia)) as (a & b & t & E & CT & CA).
  rewrite (find_position base e l ipos o a b t) by assumption.
  rewrite (find_position base e l (fun _ => 0) o a b t) by (try assumption; eapply no_index_ok; eassumption).
  split; [reflexivity|]. intros _. exists a, b, t. auto.
Qed.
Lemma segs_g_inv c : forall prev s ls e g, segs_inv c s prev ls e -> In g prev -> exists l, g_inv c g l.
Proof.
  induction prev as [|h p IH]; intros s [|l ls] e g H I; cbn [segs_inv] in H; try contradiction.
  destruct H as (E & G & H). destruct I as [<-|I]; [eauto|eapply IH; eassumption].
Qed.
Lemma index_is_scan c r o : config_ok c -> reached c r ->
  (find_offset_position (m_base (r_active r)) (m_end (r_active r)) (m_log (r_active r)) (m_ipos (r_active r)) o
   = find_offset_position (m_base (r_active r)) (m_end (r_active r)) (m_log (r_active r)) (fun _ => 0) o)
  /\ forall g, In g (r_prev r) ->
     find_offset_position (g_base g) (g_end g) (g_log g) (g_ipos g) o
     = find_offset_position (g_base g) (g_end g) (g_log g) (fun _ => 0) o.
Proof.
  intros CO R. destruct (reached_inv _ _ CO R) as (L & s & ls & act & _ & H & M & _). split.
  - pose proof (m_ipos_ok _ _ _ M) as IP. destruct M as ((EL & CH & OK & _ & _ & SP & _) & _). rewrite EL. apply lookup_is_scan; assumption.
  - intros g IN. destruct (segs_g_inv _ _ _ _ _ _ H IN) as (l & G). pose proof (g_ipos_ok _ _ _ G) as IP.
    destruct G as ((EL & CH & OK & _ & _ & SP & _) & _). rewrite EL. apply lookup_is_scan; assumption.
Qed.

(** * C17 *)
Lemma complete_cut l : forall n, Forall raw_batch_ok l -> exists rest tail, l = complete l n ++ rest
  /\ ztake n (encs l) = encs (complete l n) ++ tail
  /\ (tail = [] \/ exists b k, raw_batch_ok b /\ 0 < k < zlen (renc b) /\ tail = ztake k (renc b)).
Proof.
  induction l as [|b l IH]; intros n OK; cbn [complete].
  - exists [], []. split; [reflexivity|]. split; [destruct n; reflexivity|]. left. reflexivity.
  - inversion OK as [|? ? OKb OKl]; subst. rewrite encs_cons. destruct (zlen (renc b) <=? n) eqn:C.
    + destruct (IH (n - zlen (renc b)) OKl) as (rest & tail & E1 & E2 & T). exists rest, tail.
      split; [cbn [app]; f_equal; assumption|]. split; [|assumption].
      rewrite ztake_app_ge by lia. rewrite E2, encs_cons, app_assoc. reflexivity.
    + exists (b :: l), (ztake n (renc b)). split; [reflexivity|]. split; [rewrite ztake_app_le by lia; reflexivity|].
      destruct (Z.le_gt_cases n 0); [left; apply ztake_neg; assumption|]. right. exists b, n. split; [assumption|]. split; [lia|reflexivity].
Qed.
Lemma chain_prefix s a b e : chain s (a ++ b) e -> chain s a (s + total a) /\ s + total a <= e.
Proof. intros H. apply chain_split in H as (m & H1 & H2). pose proof (chain_total _ _ _ H1) as E. apply chain_le in H2. split; [congruence|lia]. Qed.

Lemma recovery c r now n k : config_ok c -> reached c r ->
  exists older act, stores r (older ++ act) /\ m_log (r_active r) = flat_map renc act
  /\ exists r', (stores r' (older ++ complete act n) /\ get_log_start r' = get_log_start r
                 /\ get_hw r' = Z.min (get_leo r') (ckpt_value (m_base (r_active r)) k))
  /\ load c now (cut_disk r n k)
     = if first_empty 0 (m_ifile (r_active r)) <? c_entries c then Done r' else Fail IndexFull.
Proof.
  intros CO R. destruct (reached_inv _ _ CO R) as (L & s & ls & act & -> & I).
  exists (concat ls), act. pose proof I as (H & M & S0). pose proof M as ((EL & CH & OK & EN & SZ & SP & B0 & E63) & _).
  split; [apply (inv_stores c r); exists s, ls, act; auto|]. split; [assumption|].
  destruct (complete_cut act n OK) as (rest & tail & E1 & E2 & T).
  set (cl := complete act n) in *. clearbody cl.
  assert (Forall raw_batch_ok cl) as OKc by (rewrite E1 in OK; apply Forall_app in OK; apply OK).
  rewrite E1 in CH. apply chain_prefix in CH as (CHc & LEc).
  assert (zlen (encs cl) <= c_seg_max c) as SZc.
  { rewrite EL, E1, encs_app, zlen_app in SZ. pose proof (zlen_nonneg (encs rest)). lia. }
  pose proof (open_tail c (m_base (r_active r)) cl (m_base (r_active r) + total cl) tail (m_ifile (r_active r)) (m_mtime (r_active r))
    CO B0 ltac:(lia) ltac:(lia) OKc CHc SZc T) as OT.
  exists (assemble (map reopen (r_prev r)) (mkMseg (m_base (r_active r)) (m_base (r_active r) + total cl) (encs cl) (m_ifile (r_active r)) (first_empty 0 (m_ifile (r_active r))) 0 0 (m_mtime (r_active r))) k).
  pose proof (reopen_segs _ _ _ _ _ H) as H'. destruct (segs_chain _ _ _ _ _ H') as (CA & EA & OA).
  assert (get_log_start r = s) as LS by (apply (log_start_ok _ _ _ _ _ I)).
  match goal with |- (stores ?r' _ /\ _) /\ _ => assert (get_log_start r' = s) as LS' end.
  { unfold get_log_start, assemble. cbn [r_prev r_active m_base]. rewrite (seg_min_ok _ _ _ _ _ H' S0).
    destruct (r_prev r) as [|g p]; destruct ls; cbn [segs_inv] in H; try contradiction; cbn [map].
    - change (-1 <? 0) with true. auto.
    - replace (s <? 0) with false by lia. reflexivity. }
  split; [split; [|split]|].
  - split; [|rewrite LS'; unfold get_leo, assemble; cbn [r_active m_end]; eapply chain_app; [exact CA|exact CHc]].
    unfold log_bytes, assemble. cbn [r_prev r_active m_log]. rewrite EA. symmetry. apply encs_app.
  - congruence.
  - unfold get_hw, get_leo, assemble. cbn [r_hw r_active m_end m_base]. destruct (_ <? ckpt_value _ k) eqn:C; lia.
  - unfold cut_disk. rewrite EL, E2.
    rewrite (load_unfold c now s (r_prev r) ls (m_base (r_active r)) (mkDseg (m_base (r_active r)) (encs cl ++ tail) (m_ifile (r_active r)) (m_mtime (r_active r))) k H eq_refl).
    rewrite OT. destruct (_ <? _); reflexivity.
Qed.
Lemma index_never_full c m l : config_ok c -> index_fits c -> m_inv c m l -> first_empty 0 (m_ifile m) <? c_entries c = true.
Proof.
  intros CO IF ((EL & CH & OK & EN & SZ & SP & B0 & E63) & SL & LA & L0 & (A0 & A1 & A2)).
  pose proof (first_empty_range (m_ifile m) 0). unfold index_fits in IF. destruct CO as (_ & CI & _).
  assert (zlen (m_ifile m) < c_entries c) by nia. lia.
Qed.
Lemma recovery_succeeds c r now n k : config_ok c -> index_fits c -> reached c r -> exists r', load c now (cut_disk r n k) = Done r'.
Proof.
  intros CO IF R. destruct (recovery c r now n k CO R) as (older & act & _ & _ & r' & _ & LD).
  destruct (reached_inv _ _ CO R) as (L & s & ls & act' & -> & (H & M & S0)).
  rewrite (index_never_full _ _ _ CO IF M) in LD. eauto.
Qed.
(** A crash in the middle of an append, and what the history may go on with. *)
Lemma crash_recovery c r now b n k : config_ok c -> reached c r -> op_ok c r (Crash now b n k) ->
  exists bs new r', stores r bs /\ (new = [] \/ new = [with_base b (get_leo r)])
    /\ stores r' (bs ++ new) /\ get_log_start r' = get_log_start r
    /\ (exec c r (Crash now b n k) = Done r' \/ exec c r (Crash now b n k) = Fail IndexFull)
    /\ (index_fits c -> exec c r (Crash now b n k) = Done r').
Proof.
  intros CO R OK. destruct (reached_inv _ _ CO R) as (L & s & ls & act & -> & I).
  destruct (crash_at c now s r ls act b n k CO I OK) as (r' & new & ls' & act' & m & N & I1 & F & LEO & HW & SH & (l & M) & LD).
  exists (concat ls ++ act), new, r'. split; [apply (inv_stores c r); exists s, ls, act; auto|].
  split; [destruct N as [->|[-> _]]; auto|]. rewrite <- F. split; [apply (inv_stores c r'); exists s, ls', act'; auto|].
  split; [rewrite (log_start_ok _ _ _ _ _ I), (log_start_ok _ _ _ _ _ I1); reflexivity|].
  cbn [exec]. rewrite LD. split; [destruct (_ <? _); auto|]. intros IF. rewrite (index_never_full _ _ _ CO IF M). reflexivity.
Qed.

(** * C18 *)
Lemma exec_hw c r a r' : config_ok c -> (exists L, inv c r L) -> op_ok c r a -> hw_in_log r a -> exec c r a = Done r' ->
  get_hw r <= get_leo r -> get_hw r' <= get_leo r'.
Proof.
  intros CO (L & s & ls & act & -> & I) OK P EX HW. destruct a as [now l upd|o| |now|now k|now b n k]; cbn [exec] in EX.
  - destruct OK as (OKl & R). inversion EX as [EX']. clear EX EX'. destruct (write_recordset c now r l upd) as [r1 res] eqn:W. cbn [fst].
    destruct (write_recordset_at _ _ _ _ _ _ _ _ _ _ CO I OKl R W) as (n & ls' & act' & I' & N & F & LEO & D).
    pose proof (total_nonneg (firstn n l)). destruct res as [e|]; destruct D as (_ & D); [|destruct upd]; lia.
  - inversion EX; subst. exact P.
  - inversion EX; subst. destruct (enforce_size_at c s r ls act I) as (s' & l1 & l2 & old & _ & _ & _ & _ & A & HWE & _).
    unfold get_hw, get_leo in *. rewrite A, HWE. assumption.
  - inversion EX; subst. destruct (enforce_ttl_at c now s r ls act I OK) as (s' & l1 & l2 & old & _ & _ & _ & _ & A & HWE & _).
    unfold get_hw, get_leo in *. rewrite A, HWE. assumption.
  - destruct (restart_at c now s r ls act k CO I) as (r1 & I1 & LEO & HW1 & SH & HWE & LD). rewrite LD in EX.
    destruct (_ <? _) in EX; inversion EX; subst. exact HW1.
  - destruct (crash_at c now s r ls act b n k CO I OK) as (r1 & new & ls' & act' & m & N & I1 & F & LEO & HW1 & SH & _ & LD). rewrite LD in EX.
    destruct (_ <? _) in EX; inversion EX; subst. exact HW1.
Qed.
Lemma hw_below_end c now r : config_ok c -> steps c hw_in_log (fresh c now) r -> get_hw r <= get_leo r.
Proof.
  intros CO ST. remember (fresh c now) as f eqn:F.
  assert ((exists L, inv c f L) /\ get_hw f <= get_leo f) as F0.
  { subst f. split; [exists []; apply fresh_inv; assumption|]. vm_compute. congruence. }
  clear F. assert ((exists L, inv c r L) /\ get_hw r <= get_leo r) as [_ G]; [|exact G].
  induction ST as [f|f r1 r2 a ST IH OK HP EX]; [assumption|]. destruct (IH F0) as ((L & I1) & H1).
  split; [destruct (step _ _ _ _ _ CO I1 OK EX) as (L2 & I2 & _); eauto|]. eapply exec_hw; [exact CO|exists L; exact I1|eassumption..].
Qed.
(** Whatever the checkpoint says. *)
Lemma load_hw c now d r : load c now d = Done r -> get_hw r <= get_leo r.
Proof.
  assert (forall prev mm kk, get_hw (assemble prev mm kk) <= get_leo (assemble prev mm kk)) as HW.
  { intros. unfold assemble, get_leo, get_hw. cbn [r_hw r_active]. destruct (m_end mm <? _) eqn:C; lia. }
  unfold load. destruct (rev _); [intros H; inversion H; apply HW|]. destruct (open_all _ _); [|discriminate].
  destruct (open_for_write c d0); [|discriminate]. intros H; inversion H; apply HW.
Qed.

(** * C19 *)
Lemma check_limits_spec c l : (exists b, In b l /\ (c_seg_max c < batch_size raw_codec b \/ c_req_max c < batch_size raw_codec b)) <-> check_limits c l <> None.
Proof.
  induction l as [|b l IH]; cbn [check_limits].
  - split; [intros (b & [] & _)|congruence].
  - cbv zeta. destruct (c_seg_max c <? _) eqn:C1; [split; [discriminate|]; intros _; exists b; split; [left; reflexivity|lia]|].
    destruct (c_req_max c <? _) eqn:C2; [split; [discriminate|]; intros _; exists b; split; [left; reflexivity|lia]|].
    rewrite <- IH. split.
    + intros (x & [<-|Hx] & H); [lia|]. eauto.
    + intros (x & Hx & H). exists x. split; [right; assumption|assumption].
Qed.
Lemma check_limits_err c l e : check_limits c l = Some e -> e = BatchExceededSegment \/ e = BatchTooBig.
Proof.
  induction l as [|b l IH]; cbn [check_limits]; [discriminate|]. cbv zeta.
  destruct (_ <? _); [intros H; inversion H; auto|]. destruct (_ <? _); [intros H; inversion H; auto|]. exact IH.
Qed.
Lemma too_large_rejected c now r l upd b : In b l ->
  c_seg_max c < batch_size raw_codec b \/ c_req_max c < batch_size raw_codec b ->
  exists e, (e = BatchExceededSegment \/ e = BatchTooBig) /\ write_recordset c now r l upd = (r, Some e).
Proof.
  intros IN H. destruct (check_limits c l) as [e|] eqn:CL.
  - exists e. split; [eapply check_limits_err; eassumption|]. unfold write_recordset. rewrite CL. reflexivity.
  - exfalso. apply (proj1 (check_limits_spec c l)); [eauto|assumption].
Qed.
Lemma rejected_unchanged c r now l upd r' e : config_ok c -> reached c r -> Forall raw_batch_ok l -> room r l ->
  write_recordset c now r l upd = (r', Some e) -> e = BatchExceededSegment \/ e = BatchTooBig \/ e = ShortCircuited -> r' = r.
Proof.
  intros CO R OK RM W He. destruct (reached_inv _ _ CO R) as (L & s & ls & act & _ & I).
  unfold write_recordset in W. destruct (check_limits c l) as [e'|] eqn:CL; [inversion W; reflexivity|].
  destruct (write_batches c now r l) as [r1 res] eqn:WB.
  destruct (write_batches_at _ _ _ _ _ _ _ _ _ CO I OK CL RM WB) as (n & ls' & act' & I' & MB & HW & N & F & LEO & POS & D).
  destruct res as [e1|]; inversion W; subst. destruct D as (_ & [(_ & _ & _ & D)|(_ & b & _ & [(D & _)|(D & _)])]); [assumption|subst e..];
  destruct He as [He|[He|He]]; discriminate.
Qed.

(** * C20 *)
Lemma retention_oldest c r a r' : config_ok c -> reached c r -> op_ok c r a -> (a = CleanSize \/ exists now, a = CleanTtl now) ->
  exec c r a = Done r' ->
  exists old dropped kept, r_prev r = old ++ r_prev r' /\ r_active r' = r_active r
    /\ get_leo r' = get_leo r /\ get_hw r' = get_hw r
    /\ stores r (dropped ++ kept) /\ stores r' kept.
Proof.
  intros CO R OK A EX. destruct (reached_inv _ _ CO R) as (L & s & ls & act & _ & I).
  assert (drops_to c r ls act s r') as (s' & l1 & l2 & old & E & CH & LE & I' & AC & HW & PR & _).
  { destruct A as [->|(now & ->)]; cbn [exec] in EX; inversion EX; [apply enforce_size_at|apply enforce_ttl_at]; assumption. }
  exists old, (concat l1), (concat l2 ++ act). split; [assumption|]. split; [assumption|]. split; [unfold get_leo; rewrite AC; reflexivity|].
  split; [assumption|]. split; [|apply (inv_stores c r'); exists s', l2, act; auto].
  rewrite app_assoc, <- concat_app, <- E. apply (inv_stores c r); exists s, ls, act; auto.
Qed.
Lemma within_size_kept c r : get_partition_size r <= c_part_max c -> enforce_size c r = r.
Proof. intros H. unfold enforce_size. cbv zeta. replace (0 <? Z.max 0 _) with false by lia. reflexivity. Qed.
Lemma ttl_exact c now r g : config_ok c -> reached c r -> (In g (r_prev (enforce_ttl c now r)) <-> In g (r_prev r) /\ is_expired c now g = false).
Proof.
  intros CO R. destruct (reached_inv _ _ CO R) as (L & s & ls & act & _ & (H & _)).
  assert (forall x y, In x (r_prev r) -> In y (r_prev r) -> g_base x = g_base y -> x = y) as INJ.
  { clear -H. revert s ls H. generalize (m_base (r_active r)) as e. induction (r_prev r) as [|h p IH]; intros e s [|l ls] H; cbn [segs_inv] in H; try contradiction.
    destruct H as (E & G & H). pose proof (g_inv_lt _ _ _ G).
    intros x y [<-|Hx] [<-|Hy] B; [reflexivity| | |eapply IH; eassumption].
    - destruct (segs_in _ _ _ _ _ y H Hy). lia.
    - destruct (segs_in _ _ _ _ _ x H Hx). lia. }
  unfold enforce_ttl. destruct (filter (is_expired c now) (r_prev r)) as [|x ex] eqn:F.
  - split; [|tauto]. intros IN. split; [assumption|]. apply not_true_is_false. intros T.
    assert (In g (filter (is_expired c now) (r_prev r))) as IF by (apply filter_In; auto). rewrite F in IF. destruct IF.
  - rewrite <- F. cbn [r_prev]. unfold remove_segments. rewrite filter_In. split.
    + intros (IN & NB). split; [assumption|]. apply not_true_is_false. intros T. apply negb_true_iff in NB.
      rewrite <- not_true_iff_false in NB. apply NB. apply existsb_exists. exists (g_base g). split; [|apply Z.eqb_refl].
      apply in_map. apply filter_In. auto.
    + intros (IN & NE). split; [assumption|]. apply negb_true_iff. apply not_true_is_false. intros T.
      apply existsb_exists in T as (b & Hb & E). apply in_map_iff in Hb as (y & <- & Hy). apply filter_In in Hy as (Hy & Ey).
      apply Z.eqb_eq in E. rewrite (INJ g y IN Hy E) in NE. congruence.
Qed.

(** * C21 *)
Lemma one_segment c r o : config_ok c -> reached c r -> get_log_start r <= o < get_leo r ->
  (m_base (r_active r) <= o /\ (forall g, In g (r_prev r) -> ~ (g_base g <= o < g_end g)))
  \/ (o < m_base (r_active r) /\ exists g, In g (r_prev r) /\ g_base g <= o < g_end g /\ find_segment (r_prev r) o = Some g
      /\ forall g', In g' (r_prev r) -> g_base g' <= o < g_end g' -> g' = g).
Proof.
  intros CO R Ho. destruct (reached_inv _ _ CO R) as (L & s & ls & act & _ & I). rewrite (log_start_ok _ _ _ _ _ I) in Ho.
  destruct I as (H & M & S0). destruct (Z.le_gt_cases (m_base (r_active r)) o) as [A|A].
  - left. split; [assumption|]. intros g IN. destruct (segs_in _ _ _ _ _ g H IN). lia.
  - right. split; [assumption|]. destruct (find_segment_ok _ _ _ _ _ o H S0 ltac:(lia)) as (p1 & g & p2 & E & HG & F).
    exists g. split; [rewrite E; apply in_or_app; right; left; reflexivity|]. split; [assumption|]. split; [assumption|].
    intros g' IN HG'. rewrite E in H. destruct (segs_split _ _ _ _ _ _ H) as (l1 & l2 & m & -> & H1 & H2).
    destruct l2 as [|l l2]; cbn [segs_inv] in H2; [contradiction|]. destruct H2 as (Eg & G & H2).
    rewrite E in IN. apply in_app_or in IN as [IN|[IN|IN]]; [|congruence|].
    + destruct (segs_in _ _ _ _ _ g' H1 IN). lia.
    + destruct (segs_in _ _ _ _ _ g' H2 IN). lia.
Qed.
Lemma no_segment c r o : config_ok c -> reached c r -> o < get_log_start r \/ m_base (r_active r) <= o -> find_segment (r_prev r) o = None.
Proof.
  intros CO R Ho. destruct (reached_inv _ _ CO R) as (L & s & ls & act & _ & I). rewrite (log_start_ok _ _ _ _ _ I) in Ho.
  destruct I as (H & M & S0). destruct (Z.lt_ge_cases o s) as [A|A]; [eapply find_segment_low; eassumption|].
  destruct Ho as [Ho|Ho]; [lia|]. pose proof (segs_le _ _ _ _ _ H) as LE.
  unfold find_segment. rewrite (seg_min_ok _ _ _ _ _ H S0), (seg_max_ok _ _ _ _ _ H S0).
  destruct (r_prev r) as [|g p]; destruct ls; cbn [segs_inv] in H; try contradiction.
  - replace (o <? -1) with false by lia. replace (o =? -1) with false by lia. replace (0 <=? o) with true by lia. reflexivity.
  - destruct H as (Eg & G & H'). pose proof (g_inv_lt _ _ _ G). pose proof (segs_le _ _ _ _ _ H').
    replace (o <? s) with false by lia. replace (o =? s) with false by lia. replace (_ <=? o) with true by lia. reflexivity.
Qed.

(** * C22 *)
Lemma wrun_app w a b : wrun w (a ++ b) = wrun (wrun w a) b.
Proof. apply fold_left_app. Qed.
Lemma wstep_start w e : w_start (wstep w e) = w_start w.
Proof. destruct e; cbn [wstep]; [reflexivity|]. destruct (_ =? _); reflexivity. Qed.
Lemma wrun_start l : forall w, w_start (wrun w l) = w_start w.
Proof. induction l as [|e l IH]; intros w; [reflexivity|]. change (w_start (wrun (wstep w e) l) = w_start w). rewrite IH. apply wstep_start. Qed.
Lemma wrun_file l : forall w, (w_seen w <> w_start w -> w_seen w <> 0 -> w_file w = Value (w_seen w)) ->
  let w' := wrun w l in w_seen w' <> w_start w' -> w_seen w' <> 0 -> w_file w' = Value (w_seen w').
Proof.
  induction l as [|e l IH]; intros w H; [exact H|]. cbn [wrun fold_left]. apply IH. destruct e as [o|]; cbn [wstep]; [exact H|].
  destruct (w_value w =? w_seen w) eqn:C; [exact H|]. cbn [w_seen w_start w_file]. intros H1 H2. replace (w_value w =? w_start w) with false by lia. reflexivity.
Qed.
Lemma wrun_same l : forall w, w_value w = w_start w -> Forall (eq (w_start w)) (values_set l) ->
  w_file (wrun w l) = w_file w /\ w_value (wrun w l) = w_start w.
Proof.
  induction l as [|e l IH]; intros w E F; [auto|]. cbn [wrun fold_left]. destruct e as [o|].
  - cbn [values_set flat_map app] in F. pose proof (Forall_inv F) as F1. pose proof (Forall_inv_tail F) as F2. cbv beta in F1. destruct (IH (wstep w (SetTo o))) as (A & B); cbn [wstep w_value w_start w_file] in *; [congruence|assumption|]. auto.
  - cbn [values_set flat_map app] in F. destruct (IH (wstep w Run)) as (A & B); rewrite ?wstep_start; cbn [wstep].
    + destruct (_ =? _); cbn [w_value]; assumption.
    + assumption.
    + cbn [wstep] in A. rewrite wstep_start in B. cbn [wstep] in B. unfold wrun in A, B. rewrite A, B. split; [|reflexivity].
      destruct (w_value w =? w_seen w); [reflexivity|]. cbn [w_file]. rewrite E, Z.eqb_refl. reflexivity.
Qed.
Lemma durable k initial l : let w := wrun (open_writer k initial) (l ++ [Run]) in
  (w_value w <> w_start w /\ w_value w <> 0) \/ Forall (eq (w_start w)) (winit k initial :: values_set l) ->
  read_back w = w_value w.
Proof.
  cbv zeta. rewrite wrun_app. set (w0 := open_writer k initial).
  assert (w_seen (wrun (wrun w0 l) [Run]) = w_value (wrun (wrun w0 l) [Run])) as SV.
  { cbn [wrun fold_left wstep]. destruct (_ =? _) eqn:C; [symmetry; apply Z.eqb_eq; exact C|reflexivity]. }
  rewrite <- wrun_app in *. intros [(H1 & H2)|F].
  - unfold read_back. rewrite (wrun_file (l ++ [Run]) w0); [cbn [ckpt_value]; assumption| |congruence|congruence].
    intros A B. exfalso. apply B. unfold w0, open_writer. destruct k; reflexivity.
  - rewrite wrun_start in F. inversion F as [|? ? F1 F2]; subst. fold w0 in F1.
    destruct (wrun_same (l ++ [Run]) w0 ltac:(symmetry; exact F1)) as (A & B).
    { unfold values_set. rewrite flat_map_app. cbn [flat_map]. rewrite app_nil_r. exact F2. }
    unfold read_back. rewrite A, B. unfold w0, open_writer. destruct k; reflexivity.
Qed.
Lemma last_set l : forall w, w_value (wrun w l) = last (values_set l) (w_value w).
Proof.
  induction l as [|e l IH]; intros w; [reflexivity|]. cbn [wrun fold_left]. unfold wrun in IH. rewrite IH. destruct e as [o|]; cbn [wstep].
  - cbn [values_set flat_map app w_value]. destruct (values_set l) eqn:V; unfold values_set in V; rewrite V; [reflexivity|]. clear. revert o z.
    assert (forall (t : list Z) a b d, last (a :: t) b = last (a :: t) d) as H by (induction t as [|y t IHt]; intros a b d; [reflexivity|]; apply (IHt y)).
    intros. cbn [last]. destruct l0; [reflexivity|]. apply H.
  - destruct (_ =? _) eqn:C; reflexivity.
Qed.
Lemma nondecreasing_last l : forall x, nondecreasing x l -> x <= last l x /\ (last l x = x -> Forall (eq x) l).
Proof.
  induction l as [|y t IH]; intros x; cbn [nondecreasing]; [intros _; cbn; split; [lia|constructor]|].
  intros (H1 & H2). destruct (IH y H2) as (A & B).
  assert (last (y :: t) x = last t y) as ->. { destruct t as [|z t]; [reflexivity|]. cbn [last]. clear. revert z. induction t as [|q t IHt]; intros z; [reflexivity|]. apply (IHt q). }
  split; [lia|]. intros E. assert (y = x) by lia. subst y. constructor; [reflexivity|]. apply B. assumption.
Qed.
Lemma durable_increasing k initial l : 0 <= winit k initial -> nondecreasing (winit k initial) (values_set l) ->
  let w := wrun (open_writer k initial) (l ++ [Run]) in read_back w = w_value w.
Proof.
  intros W ND. cbv zeta. apply durable. rewrite last_set, wrun_start.
  assert (values_set (l ++ [Run]) = values_set l) as -> by (unfold values_set; rewrite flat_map_app; cbn [flat_map]; apply app_nil_r).
  fold (winit k initial). destruct (nondecreasing_last _ _ ND) as (A & B).
  assert (w_start (open_writer k initial) = 0 \/ w_start (open_writer k initial) = winit k initial) as S by (unfold winit, open_writer; destruct k; cbn; auto).
  set (v := last (values_set l) (winit k initial)) in *. clearbody v.
  destruct (Z.eq_dec v (winit k initial)) as [E|E].
  - specialize (B E). destruct (Z.eq_dec (w_start (open_writer k initial)) (winit k initial)) as [S'|S'].
    + right. rewrite S'. constructor; [reflexivity|assumption].
    + left. lia.
  - left. lia.
Qed.

(** * C23 *)
Lemma list_occupied_app l g : list_occupied (l ++ [g]) = list_occupied l + g_occupied g.
Proof. unfold list_occupied. rewrite fold_left_app. reflexivity. Qed.
Lemma list_occupied_sum l : list_occupied l = fold_right (fun g a => zlen (g_log g) + 8 * zlen (g_idx g) + a) 0 l.
Proof.
  unfold list_occupied. assert (forall a, fold_left (fun a g => a + g_occupied g) l a = a + fold_right (fun g a => zlen (g_log g) + 8 * zlen (g_idx g) + a) 0 l) as H.
  { induction l as [|g l IH]; intros a; cbn [fold_left fold_right]; [lia|]. rewrite IH. unfold g_occupied. lia. }
  rewrite H. lia.
Qed.
Definition sized (r : replica) : Prop := r_prev_size r = list_occupied (r_prev r) /\ r_active_size r = m_occupied (r_active r).
Lemma sized_size r : sized r -> get_partition_size r = size_of_segments r.
Proof. intros (A & B). unfold get_partition_size, size_of_segments. rewrite A, B, list_occupied_sum. unfold m_occupied. lia. Qed.
Lemma write_batch_sized c now s r ls act b r' res : config_ok c -> inv_at c s r ls act -> raw_batch_ok b ->
  batch_size raw_codec b <= c_seg_max c -> room r [b] -> has_schema (b_hdr b) = false ->
  write_batch c now r b = (r', res) -> sized r -> sized r'.
Proof.
  intros CO I OKb SZ (R1 & R2) NS W (A & B). unfold write_batch in W. cbn [total] in R1, R2. rewrite Z.add_0_r in R1, R2.
  destruct (r_short r); [inversion W; subst; split; assumption|].
  destruct (append_batch c now (r_active r) b) as [m []] eqn:AP.
  - inversion W; subst. split; [exact A|reflexivity].
  - destruct (append_full _ _ _ _ _ AP) as (-> & P). pose proof I as (H & M & S0).
    pose proof (full_nonempty _ _ _ _ _ _ M OKb SZ AP) as NE.
    pose proof (roll_inv _ _ _ _ _ now CO I NE) as I1. pose proof I1 as (H1 & M1 & _). cbv zeta in W.
    destruct (append_batch c now (r_active (roll_over now r)) b) as [m1 []] eqn:AP1.
    + inversion W; subst. split; [|reflexivity]. unfold finish_append, roll_over, roll_link, roll_count. cbn [r_prev_size r_prev r_active].
      rewrite (add_segment_end _ _ _ _ _ (close_segment (r_active r)) H eq_refl), list_occupied_app. rewrite A. reflexivity.
    + exfalso. destruct (append_full _ _ _ _ _ AP1) as (-> & _). apply (full_nonempty _ _ _ _ _ _ M1 OKb SZ AP1). reflexivity.
    + exfalso. destruct (append_batch_failure _ _ _ _ _ _ _ CO M1 OKb ltac:(pose proof M as ((_ & CH & _) & _); apply chain_le in CH; unfold roll_over, roll_link, roll_count, new_segment, get_leo in *; cbn [r_active m_end m_base]; lia) AP1) as (_ & [[_ D]|[_ D]]); [lia|congruence].
  - pose proof I as (H & M & S0). destruct (append_batch_failure _ _ _ _ _ _ _ CO M OKb R1 AP) as (-> & [[-> D]|[_ D]]); [|congruence].
    inversion W; subst. split; assumption.
Qed.
Lemma write_batches_sized c now s l : forall r ls act r' res, config_ok c -> inv_at c s r ls act -> Forall raw_batch_ok l ->
  check_limits c l = None -> room r l -> Forall (fun b => has_schema (b_hdr b) = false) l -> write_batches c now r l = (r', res) -> sized r -> sized r'.
Proof.
  induction l as [|b l IH]; intros r ls act r' res CO I OK CL R NS W SZ; cbn [write_batches] in W; [inversion W; subst; assumption|].
  inversion OK as [|? ? OKb OKl]; subst. inversion NS as [|? ? NSb NSl]; subst. cbn [check_limits] in CL. cbv zeta in CL.
  destruct (c_seg_max c <? batch_size raw_codec b) eqn:C1; [discriminate|]. destruct (c_req_max c <? batch_size raw_codec b); [discriminate|].
  pose proof (total_nonneg l) as TN. destruct R as (R1 & R2). cbn [total] in R1, R2.
  assert (room r [b]) as RB by (split; cbn [total]; lia).
  destruct (write_batch c now r b) as [r1 res1] eqn:WB.
  destruct (write_batch_at _ _ _ _ _ _ _ _ _ CO I OKb ltac:(lia) RB WB) as (ls1 & act1 & I1 & MB & HW & D).
  pose proof (write_batch_sized _ _ _ _ _ _ _ _ _ CO I OKb ltac:(lia) RB NSb WB SZ) as SZ1.
  destruct res1 as [e|]; [inversion W; subst; assumption|]. destruct D as (D1 & D2 & D3 & D4).
  eapply (IH r1 ls1 act1); try eassumption. split; lia.
Qed.
Lemma exec_sized c r a r' : config_ok c -> (exists L, inv c r L) -> op_ok c r a -> running r a -> exec c r a = Done r' -> sized r -> sized r'.
Proof.
  intros CO (L & s & ls & act & _ & I) OK P EX SZ. destruct a as [now l upd|o| |now|now k|now b n k]; cbn [exec] in EX; try contradiction.
  - destruct OK as (OKl & R). inversion EX as [EX']. clear EX EX'. unfold write_recordset.
    destruct (check_limits c l) eqn:CL; [assumption|]. destruct (write_batches c now r l) as [r1 res] eqn:WB.
    pose proof (write_batches_sized _ _ _ _ _ _ _ _ _ CO I OKl CL R P WB SZ) as S1. destruct res; [assumption|]. destruct upd; assumption.
  - inversion EX; subst. assumption.
  - inversion EX; subst. unfold enforce_size. cbv zeta. destruct (0 <? _); [|assumption]. split; [reflexivity|apply SZ].
  - inversion EX; subst. unfold enforce_ttl. destruct (filter _ _); [assumption|]. split; [reflexivity|apply SZ].
Qed.
Lemma size_exact c now r : config_ok c -> steps c running (fresh c now) r -> get_partition_size r = size_of_segments r.
Proof.
  intros CO ST. remember (fresh c now) as f eqn:F.
  assert ((exists L, inv c f L) /\ sized f) as F0.
  { subst f. split; [exists []; apply fresh_inv; assumption|]. split; reflexivity. }
  clear F. apply sized_size. assert ((exists L, inv c r L) /\ sized r) as [_ G]; [|exact G].
  induction ST as [f|f r1 r2 a ST IH OK HP EX]; [assumption|]. destruct (IH F0) as ((L & I1) & H1).
  split; [destruct (step _ _ _ _ _ CO I1 OK EX) as (L2 & I2 & _); eauto|]. eapply exec_sized; [exact CO|exists L; exact I1|eassumption..].
Qed.

(** * Concrete replicas, and refutations *)
Definition demo (n : Z) (size : nat) : batch bytes :=
  mkBatch 0 0 (with_last_delta default_header (n - 1)) 0 (repeat 7 size).
Lemma demo_ok n size : in_s 32 (n - 1) -> Z.of_nat size < 2 ^ 31 - 61 -> raw_batch_ok (demo n size).
Proof.
  intros H S. split; [closed_range|]. split; [closed_range|]. split; [apply plain_header_ok; assumption|].
  cbn [demo b_recs]. split; [|unfold zlen; rewrite repeat_length; assumption].
  unfold is_bytes. rewrite Forall_forall. intros x Hx. apply repeat_spec in Hx. subst x. closed_range.
Qed.
Definition demo_schema : batch bytes :=
  mkBatch 0 0 (with_attr (with_last_delta default_header 1) 16) 42 (repeat 7 3%nat).
Lemma demo_schema_ok : raw_batch_ok demo_schema.
Proof.
  split; [closed_range|]. split; [closed_range|]. split.
  { pose proof (plain_header_ok 1 ltac:(closed_range)) as (H1 & H2 & H3 & H). split; [exact H1|]. split; [exact H2|].
    split; [closed_range|exact H]. }
  split; [repeat constructor; discriminate|vm_compute; reflexivity].
Qed.
Lemma steps_app c P r r1 a r2 : steps c P r r1 -> op_ok c r1 a -> P r1 a -> exec c r1 a = Done r2 -> steps c P r r2.
Proof. intros. eapply steps_more; eassumption. Qed.
Lemma reached_write c r now l upd : reached c r -> Forall raw_batch_ok l -> room r l -> reached c (fst (write_recordset c now r l upd)).
Proof. intros (t & S) OK R. exists t. eapply steps_more with (a := Write now l upd); [exact S|split; assumption|exact I|reflexivity]. Qed.
Lemma reached_fresh c now : reached c (fresh c now).
Proof. exists now. constructor. Qed.

(** Segments of 200 bytes, an index entry every 10 bytes, 100 entries. *)
Definition demo_c : config := mkConfig 200 1000 10 100 300 10.
Definition demo_r : replica :=
  fst (write_recordset demo_c 1 (fst (write_recordset demo_c 0 (fresh demo_c 0) [demo 2 3; demo 3 5; demo 1 60] true)) [demo 4 9; demo 2 90] false).
Lemma demo_c_ok : config_ok demo_c.
Proof. unfold config_ok, demo_c. cbn. lia. Qed.

Ltac room_tac := split; vm_compute; reflexivity.
Lemma demo_r_reached : reached demo_c demo_r.
Proof.
  unfold demo_r. apply reached_write; [apply reached_write; [apply reached_fresh| |]| |].
  - repeat (constructor; [apply demo_ok; [closed_range|vm_compute; reflexivity]|]). constructor.
  - room_tac.
  - repeat (constructor; [apply demo_ok; [closed_range|vm_compute; reflexivity]|]). constructor.
  - room_tac.
Qed.
Lemma demo_r_shape : map g_base (r_prev demo_r) = [0; 5] /\ m_base (r_active demo_r) = 10 /\ get_leo demo_r = 12 /\ get_hw demo_r = 6
  /\ r_short demo_r = false.
Proof. vm_compute. repeat split. Qed.
Definition one : list (batch bytes) := [demo 2 3].
Lemma one_ok : Forall raw_batch_ok one.
Proof. constructor; [apply demo_ok; [closed_range|vm_compute; reflexivity]|constructor]. Qed.

(** A committed read that starts above the watermark. *)
Definition above_c : config := mkConfig 1000 1000 100 100 10000 100.
Definition above_r : replica := fst (write_recordset above_c 0 (fresh above_c 0) [demo 2 3; demo 2 3] false).
Lemma above_r_reached : reached above_c above_r.
Proof.
  apply reached_write; [apply reached_fresh| |].
  - repeat (constructor; [apply demo_ok; [closed_range|vm_compute; reflexivity]|]). constructor.
  - room_tac.
Qed.
Lemma committed_above_refuted : exists c r o n b, config_ok c /\ reached c r /\ contains b o /\ get_hw r <= b_base b
  /\ read_partition_slice r o n ReadCommitted = Done (mkSlice (get_log_start r) (get_hw r) (get_leo r) (Some (renc b))).
Proof.
  exists above_c, above_r, 2, 1000, (with_base (demo 2 3) 2).
  split; [unfold config_ok, above_c; cbn; lia|]. split; [apply above_r_reached|]. split; [split; vm_compute; congruence|].
  split; [vm_compute; congruence|]. vm_compute. reflexivity.
Qed.

(** An index that is ahead of its log. *)
Definition stale_r : replica := fst (write_recordset above_c 0 (fresh above_c 0) [demo 2 50; demo 2 3] false).
Definition stale_c : config := above_c.
Lemma stale_r_reached : reached stale_c stale_r.
Proof.
  apply reached_write; [apply reached_fresh| |].
  - repeat (constructor; [apply demo_ok; [closed_range|vm_compute; reflexivity]|]). constructor.
  - room_tac.
Qed.
Lemma stale_index_refuted : exists c r n k r1 l r2 o, config_ok c /\ reached c r /\ load c 0 (cut_disk r n k) = Done r1
  /\ write_recordset c 0 r1 l false = (r2, None) /\ get_log_start r2 <= o < get_leo r2
  /\ find_offset_position (m_base (r_active r2)) (m_end (r_active r2)) (m_log (r_active r2)) (m_ipos (r_active r2)) o
     <> find_offset_position (m_base (r_active r2)) (m_end (r_active r2)) (m_log (r_active r2)) (fun _ => 0) o
  /\ read_partition_slice r2 o 1000 ReadUncommitted = Fail Other.
Proof.
  exists stale_c, stale_r, 0, Missing.
  eexists. exists [demo 4 80]. eexists. exists 3.
  split; [unfold config_ok, stale_c, above_c; cbn; lia|]. split; [apply stale_r_reached|].
  split; [vm_compute; reflexivity|]. split; [vm_compute; reflexivity|]. split; [vm_compute; split; congruence|].
  split; [vm_compute; discriminate|vm_compute; reflexivity].
Qed.

(** A full index prevents the partition from being opened again. *)
Definition full_c : config := mkConfig 1000 1000 10 1 10000 100.
Definition full_r : replica := fst (write_recordset full_c 0 (fresh full_c 0) [demo 2 3; demo 2 3] false).
Lemma full_index_refuted : exists c r k, config_ok c /\ reached c r /\ exec c r (Restart 0 k) = Fail IndexFull.
Proof.
  exists full_c, full_r, Missing. split; [unfold config_ok, full_c; cbn; lia|]. split; [|vm_compute; reflexivity].
  apply reached_write; [apply reached_fresh| |].
  - repeat (constructor; [apply demo_ok; [closed_range|vm_compute; reflexivity]|]). constructor.
  - room_tac.
Qed.

Lemma hw_direct_refuted : exists c r, config_ok c /\ reached c r /\ get_leo r < get_hw r.
Proof.
  exists demo_c, (update_hw (fresh demo_c 0) 5). split; [apply demo_c_ok|]. split; [|vm_compute; reflexivity].
  exists 0. eapply steps_more with (a := SetHw 5); [constructor|exact I|exact I|reflexivity].
Qed.

(** A record set with an empty batch is rejected, but its first batches stay,
    and from then on every write is rejected. *)
Lemma empty_batch_refuted : exists c r l r', config_ok c /\ reached c r /\ Forall raw_batch_ok l /\ room r l
  /\ write_recordset c 0 r l false = (r', Some EmptyBatch)
  /\ get_leo r < get_leo r' /\ log_bytes r' <> log_bytes r
  /\ write_recordset c 0 r' one false = (r', Some ShortCircuited).
Proof.
  exists above_c, (fresh above_c 0), [demo 2 3; demo 0 0]. eexists.
  split; [unfold config_ok, above_c; cbn; lia|]. split; [apply reached_fresh|].
  split; [repeat (constructor; [apply demo_ok; [closed_range|vm_compute; reflexivity]|]); constructor|].
  split; [room_tac|]. split; [vm_compute; reflexivity|]. split; [vm_compute; reflexivity|]. split; [vm_compute; discriminate|vm_compute; reflexivity].
Qed.
(** A batch with a schema id: a failed assertion ends the task that writes. *)
Lemma schema_batch_refuted : exists c r l r', config_ok c /\ reached c r /\ Forall raw_batch_ok l /\ room r l
  /\ check_limits c l = None /\ write_recordset c 0 r l false = (r', Some Panicked).
Proof.
  exists above_c, (fresh above_c 0), [demo_schema]. eexists.
  split; [unfold config_ok, above_c; cbn; lia|]. split; [apply reached_fresh|].
  split; [constructor; [apply demo_schema_ok|constructor]|].
  split; [room_tac|]. split; [vm_compute; reflexivity|]. vm_compute; reflexivity.
Qed.

(** Expiry with a clock that was set back. *)
Definition gap_c : config := mkConfig 100 1000 10 100 10000 10.
Definition gap_r : replica :=
  fst (write_recordset gap_c 100 (fst (write_recordset gap_c 0 (fst (write_recordset gap_c 100 (fresh gap_c 0) [demo 2 3] false)) [demo 2 3] false)) [demo 2 3] false).
Lemma ttl_gap_refuted : exists c now r o, config_ok c /\ reached c r
  /\ get_log_start (enforce_ttl c now r) <= o < get_leo (enforce_ttl c now r)
  /\ read_partition_slice (enforce_ttl c now r) o 1000 ReadUncommitted = Fail (OffsetEvicted o (get_log_start (enforce_ttl c now r)))
  /\ exists x, read_partition_slice r o 1000 ReadUncommitted = Done x.
Proof.
  exists gap_c, 105, gap_r, 2. split; [unfold config_ok, gap_c; cbn; lia|]. split.
  - unfold gap_r. apply reached_write; [apply reached_write; [apply reached_write; [apply reached_fresh|apply one_ok|room_tac]|apply one_ok|room_tac]|apply one_ok|room_tac].
  - split; [vm_compute; split; congruence|]. split; [vm_compute; reflexivity|]. eexists. vm_compute. reflexivity.
Qed.

Lemma return_to_start_refuted : exists k initial l, let w := wrun (open_writer k initial) (l ++ [Run]) in
  0 <= winit k initial /\ Forall (fun o => 0 <= o) (values_set l) /\ read_back w <> w_value w.
Proof. exists (Value 5), 0, [Run; SetTo 3; Run; SetTo 5]. split; [vm_compute; congruence|]. split; [repeat constructor; vm_compute; congruence|vm_compute; discriminate]. Qed.
Lemma shutdown_race_refuted : exists k initial l, let w := wrun (open_writer k initial) l in
  nondecreasing (winit k initial) (values_set l) /\ read_back w <> w_value w.
Proof. exists Missing, 0, [SetTo 3; Run; SetTo 7]. split; [vm_compute; intuition congruence|vm_compute; discriminate]. Qed.

Lemma size_restart_refuted : exists c now r r' k, config_ok c /\ steps c running (fresh c now) r
  /\ exec c r (Restart now k) = Done r' /\ get_partition_size r = size_of_segments r
  /\ get_partition_size r' < size_of_segments r'.
Proof.
  exists demo_c, 0, (fst (write_recordset demo_c 0 (fresh demo_c 0) [demo 2 60; demo 2 60] false)). eexists. exists Missing.
  split; [apply demo_c_ok|]. split.
  { eapply steps_more with (a := Write 0 [demo 2 60; demo 2 60] false); [constructor| | |reflexivity].
    - split; [|room_tac]. repeat (constructor; [apply demo_ok; [closed_range|vm_compute; reflexivity]|]). constructor.
    - repeat constructor. }
  split; [vm_compute; reflexivity|]. split; [vm_compute; reflexivity|]. vm_compute. reflexivity.
Qed.

(** The cleaner running between the two halves of a rollover. *)
Definition race_c : config := mkConfig 200 1000 10 100 100 10.
Definition race_r : replica := fst (write_recordset race_c 0 (fresh race_c 0) [demo 2 60] false).
Lemma size_race_refuted : exists c now r b m, config_ok c /\ steps c running (fresh c now) r
  /\ append_batch c now (r_active r) b = (r_active r, Full)
  /\ let r1 := roll_link now (enforce_size c (roll_count r)) in
     append_batch c now (r_active r1) b = (m, Added)
     /\ get_partition_size (finish_append r1 m) < size_of_segments (finish_append r1 m).
Proof.
  exists race_c, 0, race_r, (demo 2 60). eexists. split; [unfold config_ok, race_c; cbn; lia|]. split.
  { eapply steps_more with (a := Write 0 [demo 2 60] false); [constructor| | |reflexivity].
    - split; [|room_tac]. repeat (constructor; [apply demo_ok; [closed_range|vm_compute; reflexivity]|]). constructor.
    - repeat constructor. }
  split; [vm_compute; reflexivity|]. split; [vm_compute; reflexivity|]. vm_compute. reflexivity.
Qed.
