From Verif Require Import StorageSpec RecordSpec ReplicationSpec RecordProofs StorageProofs ReplicaProofs StorageClaims ReplicationProofs ClusterProofs ReplicationClaims WireProofs ListFacts MirrorModel MirrorSpec MirrorProofs.

(** * The copy is a prefix *)
Lemma foll_holds H c r : foll true H c r -> exists n, holds r (firstn n H).
Proof.
  intros (n & dr & L & I & F & CD & SH). exists n. destruct (inv_stores _ _ _ I) as ((LB & CL) & _).
  apply Forall2_app_inv_r in F as (a & b & F1 & F2 & E). rewrite E.
  split; [|exists a, b; split; [reflexivity|]; split; [split|]].
  - apply (rel_chain _ _ _ (Forall2_app F1 F2)). eapply chain_app; eassumption.
  - rewrite LB. apply (rel_encs true _ _ eq_refl F2).
  - apply (rel_chain _ _ _ F2). assumption.
  - apply (rel_chain _ _ _ F1). assumption.
Qed.
Lemma mirror_prefix p s : mparams_ok p -> c_seg_max (m_sconf p) <= m_max p -> runs p one_at_a_time (start p) s ->
  exists H n, holds (m_src s) H /\ holds (m_tgt s) (firstn n H).
Proof.
  intros PO SZ R. destruct (reached_minv p PO true (fun _ => SZ) _ s (fun _ _ X => X) R) as (H & MI).
  destruct (foll_holds _ _ _ (mi_tgt _ _ _ _ MI)) as (n & HO). exists H, n. split; [eapply src_holds; eassumption|exact HO].
Qed.
Lemma mirror_any_limit p s : mparams_ok p -> runs p one_at_a_time (start p) s ->
  exists H n copy, holds (m_src s) H /\ Forall2 shortened (firstn n H) copy /\ holds (m_tgt s) copy.
Proof.
  intros PO R. destruct (reached_minv p PO false ltac:(discriminate) _ s (fun _ _ X => X) R) as (H & MI).
  destruct (mi_tgt _ _ _ _ MI) as (n & dr & L & I & F & CD & SH). exists H, n, (dr ++ L). split; [eapply src_holds; eassumption|].
  split; [eapply rel_shortened; exact F|]. destruct (inv_stores _ _ _ I) as ((LB & CL) & _). split; [eapply chain_app; eassumption|]. exists dr, L. split; [reflexivity|]. split; [split; assumption|assumption].
Qed.
Lemma mirror_alone p s : mparams_ok p -> c_seg_max (m_sconf p) <= m_max p -> m_alone p = true -> runs p any_act (start p) s ->
  exists H n, holds (m_src s) H /\ holds (m_tgt s) (firstn n H).
Proof. intros PO SZ AL R. apply (mirror_prefix p s PO SZ). apply (alone_runs p true s AL R). Qed.

(** * Catching up *)
Lemma at_rest_leo p full H s : minv p full H s -> rests p s -> get_leo (m_tgt s) = get_leo (m_src s).
Proof.
  intros MI (CN & RS). destruct (m_conn s) as [[n k]|] eqn:C; [clear CN|congruence].
  pose proof (RS Push Logic.I) as RP. pose proof (RS Hear Logic.I) as RH. pose proof (RS Learn Logic.I) as RL. pose proof (RS (Check Present) Logic.I) as RC. pose proof (RS (Store Present 0) Logic.I) as RT.
  cbn [mstep link_of] in *. rewrite C in *. cbn [option_map snd] in *.
  destruct (must_push s n) eqn:MP; [destruct (make_sync _ _ _); discriminate|].
  destruct (_ =? _) eqn:LA in RH; [|discriminate].
  destruct k as [sy ch os]. destruct os as [|o os]; [|destruct (note_offset _ _ _) as [kn [n'|]]; discriminate].
  unfold store_link in RT. cbn [l_checked] in RT. destruct ch as [l|]; [destruct (leader_write _ _ _ _ _) as [r [e|]]; discriminate|].
  unfold check_link in RC. cbn [l_syncs l_checked l_offsets] in RC. destruct sy as [|b sy]; [|destruct (aligned _ _); discriminate].
  destruct (mi_token _ _ _ _ MI _ _ C) as [X|[X|[X|(X & Y)]]]; cbn in X; try congruence.
  unfold must_push in MP. destruct Y as [->|[Y|Y]]; [cbn [andb] in MP; lia|lia|exact Y].
Qed.
Lemma at_rest p s : mparams_ok p -> runs p one_at_a_time (start p) s -> rests p s -> get_leo (m_tgt s) = get_leo (m_src s).
Proof. intros PO R RS. destruct (reached_minv p PO false ltac:(discriminate) _ s (fun _ _ X => X) R) as (H & MI). eapply at_rest_leo; eassumption. Qed.

Section Catch.
Variable p : mparams.
Hypothesis PO : mparams_ok p.
Hypothesis SZ : c_seg_max (m_sconf p) <= m_max p.
Notation MINV := (minv p true).

Lemma full_holds H s : MINV H s -> get_leo (m_tgt s) = get_leo (m_src s) -> holds (m_tgt s) H.
Proof.
  intros MI E. destruct (foll_holds _ _ _ (mi_tgt _ _ _ _ MI)) as (n & HO). pose proof (src_chain _ _ _ _ MI) as CH. rewrite <- E in CH. destruct HO as (C & X).
  assert (firstn n H = H) as EQ.
  { eapply (ClusterProofs.chain_prefix (firstn n H) 0 H (skipn n H) [] (get_leo (m_tgt s))); [rewrite firstn_skipn, app_nil_r; reflexivity|exact C|exact CH]. }
  rewrite EQ in *. split; assumption.
Qed.

(** Records read at the end of the target fit there. *)
Lemma fresh_aligned H s b : MINV H s -> m_known s = get_leo (m_tgt s) -> make_sync (m_max p) (m_src s) (m_known s) = Records b ->
  aligned (m_tgt s) (receive b) = true.
Proof.
  intros MI KN. destruct PO as (CO & _ & MX). destruct (mi_src _ _ _ _ MI) as (dl & L & EH & I & CD). unfold make_sync.
  destruct (_ =? _) eqn:E; [discriminate|]. destruct (_ <? _) eqn:LT; [|discriminate].
  destruct (Z.lt_ge_cases (m_known s) (get_log_start (m_src s))) as [LO|LO].
  { rewrite (read_below _ _ _ _ _ _ I LO). discriminate. }
  destruct (read_sized _ _ _ (m_known s) (m_max p) CO I ltac:(lia)) as (pre & sel & rest & EL & ZS & RD & b0 & t & ES & CT). rewrite RD. cbn [sl_bytes].
  intros [= <-]. rewrite KN in *.
  pose proof (mi_good _ _ _ _ MI) as G. assert (Forall raw_batch_ok sel) as OKs.
  { rewrite EH, EL in G. apply Forall_app in G as (_ & G). apply Forall_app in G as (_ & G). apply Forall_app in G as (G & _). eapply Forall_impl; [|exact G]. intros x (X & _). exact X. }
  rewrite receive_full; [|exact OKs|destruct CO as (CO & _); lia|lia].
  pose proof (rel_received true sel) as RL. pose proof (src_chain _ _ _ _ MI) as CH. rewrite EH, EL in CH.
  rewrite app_assoc in CH. apply chain_split in CH as (x & CP & CH). apply chain_split in CH as (y & CS & CR).
  destruct (foll_chain _ _ _ _ (mi_tgt _ _ _ _ MI)) as (n & CN).
  pose proof CS as CS'. rewrite ES in CS'. cbn [chain] in CS'. destruct CS' as (B1 & B2 & B3). unfold contains in CT. rewrite B1 in CT.
  assert (x = get_leo (m_tgt s)) as ->.
  { destruct (prefix_cases (firstn n H) (dl ++ pre) (skipn n H) (sel ++ rest)) as [(z & EZ)|(z & u & EZ)].
    - rewrite firstn_skipn, EH, EL, <- app_assoc. reflexivity.
    - rewrite EZ in CP. apply chain_split in CP as (x' & C1 & C2). rewrite (chain_fun _ _ _ _ C1 CN) in C2. apply chain_le in C2. lia.
    - exfalso. assert (dl ++ pre ++ sel ++ rest = (dl ++ pre) ++ (z :: u) ++ skipn n H) as E2.
      { rewrite (app_assoc (dl ++ pre)), <- EZ, firstn_skipn, EH, EL. reflexivity. }
      rewrite app_assoc in E2. apply app_inv_head in E2. rewrite ES in E2. cbn [app] in E2. injection E2 as E2 _. subst z.
      rewrite EZ in CN. apply chain_split in CN as (x' & C1 & C2). rewrite (chain_fun _ _ _ _ C1 CP) in C2. cbn [chain] in C2. destruct C2 as (_ & _ & C2). apply chain_le in C2. lia. }
  apply (rel_chain true _ _ RL) in CS. pose proof CS as CS2. apply chain_total in CS2. unfold aligned. rewrite total_records_eq.
  rewrite ES in *. cbn [map] in *. cbn [chain] in CS. destruct CS as (C1 & C2 & C3). cbn [rset_base_offset]. apply chain_le in C3.
  apply andb_true_iff. split; [apply negb_true_iff; apply Z.eqb_neq; lia|apply Z.eqb_eq; exact C1].
Qed.

(** A measure of what is left to do. *)
Definition b2z (b : bool) : Z := if b then 1 else 0.
Fixpoint sumz {A} (f : A -> Z) (l : list A) : Z := match l with [] => 0 | a :: t => f a + sumz f t end.
Lemma sumz_app {A} (f : A -> Z) a b : sumz f (a ++ b) = sumz f a + sumz f b.
Proof. induction a as [|x a IH]; cbn; [reflexivity|]. rewrite IH. lia. Qed.
Lemma sumz_bounds {A} (f : A -> Z) l : (forall x, 0 <= f x <= 8) -> 0 <= sumz f l <= 8 * zlen l.
Proof. intros B. induction l as [|x l IH]; [cbn; lia|]. rewrite zlen_cons. cbn [sumz]. specialize (B x). lia. Qed.
Definition wsync (r : replica) (b : bytes) : Z := if aligned r (receive b) then 2 else 5.
Definition woff (t o : Z) : Z := if o =? t then 4 else 7.
Definition wneed (s : mirror) (n : bool) : Z := if n then (if m_known s =? get_leo (m_tgt s) then 3 else 6) else 0.
Definition late (s : mirror) : bool := negb (get_leo (m_src s) =? m_last s).
Definition weight (s : mirror) : Z :=
  match m_conn s with
  | None => 0
  | Some (n, k) => wneed s n + sumz (wsync (m_tgt s)) (l_syncs k) + b2z (is_checked k) + sumz (woff (get_leo (m_tgt s))) (l_offsets k) + 8 * b2z (late s)
  end.
Definition tokens (s : mirror) : Z :=
  match m_conn s with
  | None => 0
  | Some (n, k) => b2z n + zlen (l_syncs k) + b2z (is_checked k) + zlen (l_offsets k) + b2z (late s)
  end.
Lemma weight_bounds s : 0 <= weight s <= 8 * tokens s.
Proof.
  unfold weight, tokens. destruct (m_conn s) as [[n k]|]; [|lia].
  pose proof (sumz_bounds (wsync (m_tgt s)) (l_syncs k) ltac:(intros x; unfold wsync; destruct (aligned _ _); lia)).
  pose proof (sumz_bounds (woff (get_leo (m_tgt s))) (l_offsets k) ltac:(intros x; unfold woff; destruct (_ =? _); lia)).
  unfold wneed, b2z. destruct n, (is_checked k), (late s), (m_known s =? get_leo (m_tgt s)); lia.
Qed.
Definition behind (s : mirror) : Z := get_leo (m_src s) - get_leo (m_tgt s).
Definition measure (s : mirror) : Z := behind s * (8 * tokens s + 1) + weight s.
Lemma measure_less s s' : 0 <= behind s' -> (behind s' = behind s /\ tokens s' <= tokens s /\ weight s' < weight s) \/ (behind s' < behind s /\ tokens s' <= tokens s) -> measure s' < measure s.
Proof.
  intros B. pose proof (weight_bounds s). pose proof (weight_bounds s'). unfold measure. assert (0 <= tokens s') by lia. intros [(E & T & W)|(L & T)].
  - rewrite E in *. assert (behind s * (8 * tokens s' + 1) <= behind s * (8 * tokens s + 1)) by (apply Z.mul_le_mono_nonneg_l; lia). lia.
  - assert (behind s' * (8 * tokens s' + 1) <= behind s' * (8 * tokens s + 1)) by (apply Z.mul_le_mono_nonneg_l; lia).
    assert (behind s' * (8 * tokens s + 1) <= (behind s - 1) * (8 * tokens s + 1)) by (apply Z.mul_le_mono_nonneg_r; lia). lia.
Qed.

Lemma exchange_one s a : exchange s a -> one_at_a_time s a.
Proof. destruct a as [| | | | | | | | | | | | |[|]|]; cbn; tauto. Qed.
Lemma exchange_dec H s a s' : MINV H s -> exchange s a -> allowed p s a -> mstep p s a = Some s' ->
  m_src s' = m_src s
  /\ ((behind s' = behind s /\ tokens s' <= tokens s /\ weight s' < weight s) \/ (behind s' < behind s /\ tokens s' <= tokens s)).
Proof.
  intros MI EX AL ST. pose proof (tgt_leo _ _ _ _ MI) as TL.
  destruct a as [now l|u|u|now ck|now ck| | |i| | | | | |[|i]|[|i] now]; try (exfalso; exact EX); cbn [mstep link_of] in ST.
  - (* hear *)
    destruct (m_conn s) as [[n k]|] eqn:C; [|discriminate]. destruct (must_push s n); [discriminate|]. destruct (_ =? _) eqn:LA in ST; [discriminate|]. injection ST as <-.
    split; [reflexivity|]. left. unfold behind, tokens, weight, wneed, late. cbn [m_src m_tgt m_conn m_known m_last]. rewrite C, LA, Z.eqb_refl.
    split; [reflexivity|]. cbn [negb b2z]. destruct n, (m_known s =? get_leo (m_tgt s)); cbn [b2z]; lia.
  - (* learn *)
    destruct (m_conn s) as [[n [sy ch [|o os]]]|] eqn:C; try discriminate. destruct (must_push s n); [discriminate|].
    pose proof (mi_offs _ _ _ _ MI _ _ C) as OF. cbn [l_offsets] in OF. inversion OF as [|? ? O1 O2]; subst.
    unfold note_offset in ST. destruct (Z.compare_spec o (get_leo (m_src s))) as [EQ|LT|GT]; [| |lia]; injection ST as <-; (split; [reflexivity|]); left;
      unfold behind, tokens, weight, wneed, late, is_checked; cbn [m_src m_tgt m_conn m_known m_last l_syncs l_checked l_offsets]; rewrite C; cbn [l_syncs l_checked l_offsets sumz]; rewrite zlen_cons;
      (split; [reflexivity|]); unfold woff at 2, b2z; fold (woff (get_leo (m_tgt s))).
    + destruct n, (o =? get_leo (m_tgt s)), (m_known s =? get_leo (m_tgt s)); lia.
    + destruct (o =? get_leo (m_tgt s)), n, (m_known s =? get_leo (m_tgt s)); lia.
  - (* push *)
    destruct (m_conn s) as [[n k]|] eqn:C; [|discriminate]. destruct (must_push s n) eqn:MP; [|discriminate].
    unfold must_push in MP. apply andb_true_iff in MP as (-> & K0).
    destruct (make_sync (m_max p) (m_src s) (m_known s)) as [|b|] eqn:MS; injection ST as <-; (split; [reflexivity|]); left.
    + unfold behind, tokens, weight, wneed, late. cbn [m_src m_tgt m_conn m_known m_last]. rewrite C. split; [reflexivity|]. cbn [b2z]. destruct (m_known s =? get_leo (m_tgt s)); lia.
    + unfold behind, tokens, weight, late. cbn [m_src m_tgt m_conn m_known m_last l_syncs l_checked l_offsets]. rewrite C, sumz_app, zlen_app. split; [reflexivity|].
      change (is_checked (mkLink (l_syncs k ++ [b]) (l_checked k) (l_offsets k))) with (is_checked k). cbn [sumz b2z wneed]. change (zlen [b]) with 1.
      split; [lia|]. destruct (m_known s =? get_leo (m_tgt s)) eqn:KT.
      * apply Z.eqb_eq in KT. unfold wsync at 2. rewrite (fresh_aligned H s b MI KT MS). lia.
      * unfold wsync at 2. destruct (aligned _ _); lia.
    + unfold behind, leave. cbn [m_src m_tgt]. split; [reflexivity|]. pose proof (weight_bounds s) as WB.
      unfold tokens, weight in *. cbn [m_conn]. rewrite C in *. split; [lia|].
      pose proof (sumz_bounds (wsync (m_tgt s)) (l_syncs k) ltac:(intros x; unfold wsync; destruct (aligned _ _); lia)).
      pose proof (sumz_bounds (woff (get_leo (m_tgt s))) (l_offsets k) ltac:(intros x; unfold woff; destruct (_ =? _); lia)).
      unfold wneed, b2z. destruct (is_checked k), (late s), (m_known s =? get_leo (m_tgt s)); lia.
  - (* check *)
    destruct (m_conn s) as [[n k]|] eqn:C; [|discriminate]. cbn [option_map snd] in ST. unfold check_link in ST.
    destruct (l_syncs k) as [|b t] eqn:SY; [discriminate|]. destruct (l_checked k) eqn:CK; [discriminate|].
    destruct (aligned (m_tgt s) (receive b)) eqn:AG; injection ST as <-; (split; [reflexivity|]); left;
      unfold behind, tokens, weight, wneed, late, is_checked; cbn [set_link m_src m_tgt m_conn m_known m_last]; rewrite C; cbn [l_syncs l_checked l_offsets]; rewrite SY, CK; cbn [sumz];
      rewrite ?zlen_app, ?zlen_cons, ?sumz_app; cbn [sumz b2z]; (split; [reflexivity|]).
    + assert (wsync (m_tgt s) b = 2) by (unfold wsync; rewrite AG; reflexivity). lia.
    + change (zlen (@nil Z)) with 0. assert (wsync (m_tgt s) b = 5) by (unfold wsync; rewrite AG; reflexivity).
      assert (woff (get_leo (m_tgt s)) (get_leo (m_tgt s)) = 4) by (unfold woff; rewrite Z.eqb_refl; reflexivity). lia.
  - (* store *)
    destruct (m_conn s) as [[n k]|] eqn:C; [|discriminate]. cbn [option_map snd] in ST. unfold store_link in ST.
    destruct (l_checked k) as [l|] eqn:CK; [|discriminate]. destruct (leader_write (m_tconf p) now (m_tisr p) (m_tgt s) l) as [r0 res] eqn:W.
    assert (ready p true H (get_leo (m_tgt s)) l) as RD.
    { pose proof (mi_links _ _ _ _ MI) as ML. unfold links in ML. rewrite C in ML. cbn [app] in ML. inversion ML as [|? ? (_ & A2) _]; subst. apply A2. exact CK. }
    destruct PO as (CS & CT & MX). assert (room (m_tgt s) l) as RM by (apply (AL k l); [cbn [link_of]; rewrite C; reflexivity|exact CK]).
    pose proof (append_ok p true H (m_tconf p) now (m_tisr p) (m_tgt s) l r0 res CT (mi_good _ _ _ _ MI) (ex_intro _ _ (src_chain _ _ _ _ MI)) (mi_tgt _ _ _ _ MI) RD RM W) as AP.
    destruct res as [e|]; injection ST as <-; (split; [reflexivity|]).
    + left. subst r0. unfold behind. cbn [set_link set_tgt m_src m_tgt]. split; [reflexivity|].
      pose proof (weight_bounds s) as WB. unfold tokens, weight in *. cbn [set_link set_tgt m_conn]. rewrite C in *. split; [lia|].
      pose proof (sumz_bounds (wsync (m_tgt s)) (l_syncs k) ltac:(intros x; unfold wsync; destruct (aligned _ _); lia)).
      pose proof (sumz_bounds (woff (get_leo (m_tgt s))) (l_offsets k) ltac:(intros x; unfold woff; destruct (_ =? _); lia)).
      unfold is_checked, wneed, b2z. rewrite CK. destruct n, (late s), (m_known s =? get_leo (m_tgt s)); lia.
    + right. destruct AP as (_ & LE & TP). unfold behind, tokens, late, is_checked. cbn [set_link set_tgt m_src m_tgt m_conn m_last]. rewrite C. cbn [l_syncs l_checked l_offsets]. rewrite CK, zlen_app, zlen_cons.
      cbn [b2z]. change (zlen (@nil Z)) with 0. lia.
Qed.

Lemma exchange_step H s a s' : MINV H s -> exchange s a -> allowed p s a -> mstep p s a = Some s' ->
  m_src s' = m_src s /\ measure s' < measure s /\ exists H', MINV H' s'.
Proof.
  intros MI EX AL ST. destruct (exchange_dec _ _ _ _ MI EX AL ST) as (E & D).
  destruct (mstep_ok p PO true (fun _ => SZ) _ _ _ _ MI (safe_one _ _ (exchange_one _ _ EX)) AL ST) as (new & M' & _).
  split; [exact E|]. split; [|eauto]. apply measure_less; [|exact D]. pose proof (tgt_leo _ _ _ _ M'). unfold behind. lia.
Qed.
Lemma measure_pos H s : MINV H s -> 0 <= measure s.
Proof.
  intros MI. pose proof (tgt_leo _ _ _ _ MI). pose proof (weight_bounds s). unfold measure, behind.
  assert (0 <= (get_leo (m_src s) - get_leo (m_tgt s)) * (8 * tokens s + 1)) by (apply Z.mul_nonneg_nonneg; lia). lia.
Qed.
Lemma exchange_bound n : forall H s s', MINV H s -> steps_n p exchange n s s' -> Z.of_nat n <= measure s.
Proof.
  induction n as [|n IH]; intros H s s' MI ST; [pose proof (measure_pos _ _ MI); lia|]. inversion ST as [|? ? a s1 ? EX AL S1 S2]; subst.
  destruct (exchange_step _ _ _ _ MI EX AL S1) as (_ & M & H' & MI'). specialize (IH _ _ _ MI' S2). lia.
Qed.
Lemma bounded s : runs p one_at_a_time (start p) s -> exists n, forall k s', steps_n p exchange k s s' -> (k <= n)%nat.
Proof.
  intros R. destruct (reached_minv p PO true (fun _ => SZ) _ s (fun _ _ X => X) R) as (H & MI). exists (Z.to_nat (measure s)).
  intros k s' ST. pose proof (exchange_bound _ _ _ _ MI ST). lia.
Qed.

(** * A connection that lasts *)
Hypothesis TA : takes_all p.

Lemma write_ok H now isr r l : Forall good H -> (exists e, chain 0 H e) -> foll true H (m_tconf p) r -> ready p true H (get_leo r) l -> room r l ->
  exists r', leader_write (m_tconf p) now isr r l = (r', None).
Proof.
  intros G (e & CL) (n0 & dr & L & I & F & CH & SHT) (T & B & pre & sel & rest & k & EH & ZS & RL) RM.
  unfold leader_write. destruct (total_records l =? 0) eqn:TZ; [lia|]. clear TZ T.
  assert (Forall raw_batch_ok sel /\ Forall (fun b => has_schema (b_hdr b) = false) sel) as (OKs & NS).
  { rewrite EH in G. apply Forall_app in G as (_ & G). apply Forall_app in G as (G & _).
    split; eapply Forall_impl; try exact G; intros b (X & Y); assumption. }
  assert (Forall raw_batch_ok l) as OKl by (eapply rel_oks; [apply Forall_firstn; exact OKs|exact RL]).
  assert (Forall (fun b => has_schema (b_hdr b) = false) l) as NSl by (eapply rel_schemas; [apply Forall_firstn; exact NS|exact RL]).
  rewrite EH in CL. apply chain_split in CL as (x & CP & CL). apply chain_split in CL as (y & CS & CR).
  assert (Forall (fun b => 0 < records_len b) l) as P.
  { destruct (chain_firstn k _ _ _ CS) as (z & CZ & _). apply (rel_chain _ _ _ RL) in CZ. eapply chain_pos; exact CZ. }
  assert (Forall good l) as GL by (clear - OKl NSl; induction OKl; inversion NSl; subst; constructor; [split; assumption|auto]).
  assert (zlen (encs l) <= c_seg_max (m_sconf p)) as ZL.
  { rewrite (rel_encs true _ _ eq_refl RL). rewrite <- (firstn_skipn k sel) in ZS. unfold encs in *. rewrite flat_map_app, zlen_app in ZS. pose proof (zlen_nonneg (flat_map renc (skipn k sel))). lia. }
  destruct TA as (T1 & T2). pose proof (limits_ok (m_tconf p) l (c_seg_max (m_sconf p)) GL ZL T1 T2) as CK.
  unfold write_recordset. rewrite CK. pose proof I as (s0 & ls & act & EL & IA). destruct PO as (_ & CT & _).
  destruct (write_batches (m_tconf p) now r l) as [r1 [e0|]] eqn:WB; [exfalso|eauto].
  destruct (write_batches_at _ _ _ _ _ _ _ _ _ CT IA OKl CK RM WB) as (n & ls2 & act2 & I2 & MB & HW & N & F2 & LEO2 & POS & D2).
  destruct D2 as (_ & [(_ & S & _)|(_ & b & NB & D2)]); [congruence|].
  apply nth_error_In in NB. rewrite Forall_forall in NSl, P. specialize (NSl b NB). specialize (P b NB).
  destruct D2 as [(_ & D2 & _)|(_ & D2 & _)]; [lia|congruence].
Qed.
Lemma ready_room H s l : MINV H s -> ready p true H (get_leo (m_tgt s)) l -> get_leo (m_src s) < 2 ^ 31 -> room (m_tgt s) l.
Proof.
  intros MI (T & B & pre & sel & rest & k & EH & _ & RL) LT. pose proof (src_chain _ _ _ _ MI) as CL.
  rewrite EH in CL. apply chain_split in CL as (x & CP & CL). apply chain_split in CL as (y & CS & CR).
  destruct (chain_firstn k _ _ _ CS) as (z & CZ & ZY). apply (rel_chain _ _ _ RL) in CZ. rewrite total_records_eq in T.
  assert (x = get_leo (m_tgt s)) as -> by (destruct l as [|b l]; [cbn in T; lia|]; cbn [rset_base_offset] in B; cbn [chain] in CZ; lia).
  pose proof (chain_total _ _ _ CZ) as TO. apply chain_le in CR.
  destruct (mi_tgt _ _ _ _ MI) as (n0 & dr & L & I & F & CH & SHT). pose proof I as (s0 & ls & act & _ & SG & _ & S0). apply segs_le in SG.
  unfold room. change (2 ^ 63) with 9223372036854775808. change (2 ^ 31) with 2147483648 in *. lia.
Qed.

(** Nothing under way asks for records that the source has removed. *)
Definition calm (s : mirror) : Prop :=
  get_leo (m_src s) < 2 ^ 31 /\ get_log_start (m_src s) <= get_leo (m_tgt s) /\ Forall (fun k => l_checked k = None) (m_old s)
  /\ exists n k, m_conn s = Some (n, k) /\ Forall (fun o => get_log_start (m_src s) <= o) (l_offsets k)
    /\ (m_known s < 0 \/ get_log_start (m_src s) <= m_known s \/ (m_last s = get_leo (m_src s) /\ n = false)).

Lemma calm_step H s a s' : MINV H s -> calm s -> exchange s a -> allowed p s a -> mstep p s a = Some s' -> calm s'.
Proof.
  intros MI (LT & LS & OL & n & k & C & OF & KN) EX AL ST. pose proof (tgt_leo _ _ _ _ MI) as TL.
  destruct a as [now l|u|u|now ck|now ck| | |i| | | | | |[|i]|[|i] now]; try (exfalso; exact EX); cbn [mstep link_of] in ST; rewrite C in ST.
  - destruct (must_push s n) eqn:MP; [discriminate|]. destruct (_ =? _) eqn:LA in ST; [discriminate|]. injection ST as <-.
    split; [exact LT|]. split; [exact LS|]. split; [exact OL|]. exists true, k. split; [reflexivity|]. split; [exact OF|]. cbn. lia.
  - destruct k as [sy ch [|o os]]; try discriminate. destruct (must_push s n); [discriminate|]. cbn [l_offsets] in OF. inversion OF as [|? ? O1 O2]; subst.
    pose proof (mi_offs _ _ _ _ MI _ _ C) as OB. cbn [l_offsets] in OB. inversion OB as [|? ? B1 B2]; subst.
    unfold note_offset in ST. destruct (Z.compare_spec o (get_leo (m_src s))) as [EQ|L2|GT]; [| |lia]; injection ST as <-;
      (split; [exact LT|]); (split; [exact LS|]); (split; [exact OL|]); eexists _, _; (split; [reflexivity|]); (split; [exact O2|]); cbn [m_known m_src m_last].
    + destruct (m_known s <? 0) eqn:K; lia.
    + lia.
  - destruct (must_push s n) eqn:MP; [|discriminate]. unfold must_push in MP. apply andb_true_iff in MP as (-> & K0). apply Z.leb_le in K0.
    assert (get_log_start (m_src s) <= m_known s) as KL by (destruct KN as [KN|[KN|(_ & KN)]]; [lia|exact KN|discriminate]).
    destruct (make_sync (m_max p) (m_src s) (m_known s)) as [|b|] eqn:MS; injection ST as <-.
    + split; [exact LT|]. split; [exact LS|]. split; [exact OL|]. exists false, k. split; [reflexivity|]. split; [exact OF|]. cbn. lia.
    + split; [exact LT|]. split; [exact LS|]. split; [exact OL|]. eexists _, _. split; [reflexivity|]. split; [exact OF|]. cbn. lia.
    + exfalso. pose proof (mi_known _ _ _ _ MI) as KT. unfold make_sync in MS. destruct (_ =? _) eqn:E; [discriminate|]. destruct (_ <? _) eqn:L2; [|lia].
      destruct (mi_src _ _ _ _ MI) as (dl & L & EH & I & CD). destruct PO as (CO & _).
      destruct (read_sized _ _ _ (m_known s) (m_max p) CO I ltac:(lia)) as (pre & sel & rest & EL & ZS & RD & _). rewrite RD in MS. discriminate.
  - cbn [option_map snd] in ST. unfold check_link in ST. destruct (l_syncs k) as [|b t]; [discriminate|]. destruct (l_checked k); [discriminate|].
    destruct (aligned (m_tgt s) (receive b)); injection ST as <-; (split; [exact LT|]); (split; [exact LS|]); (split; [exact OL|]); eexists n, _; cbn [set_link m_conn m_known m_src m_last]; rewrite C;
      (split; [reflexivity|]); (split; [|exact KN]); cbn [l_offsets]; [exact OF|]. apply Forall_app. split; [exact OF|]. constructor; [exact LS|constructor].
  - cbn [option_map snd] in ST. unfold store_link in ST. destruct (l_checked k) as [l|] eqn:CK; [|discriminate].
    assert (ready p true H (get_leo (m_tgt s)) l) as RD.
    { pose proof (mi_links _ _ _ _ MI) as ML. unfold links in ML. rewrite C in ML. cbn [app] in ML. inversion ML as [|? ? (_ & A2) _]; subst. apply A2. exact CK. }
    assert (room (m_tgt s) l) as RM by (eapply ready_room; eassumption).
    destruct (write_ok H now (m_tisr p) (m_tgt s) l (mi_good _ _ _ _ MI) (ex_intro _ _ (src_chain _ _ _ _ MI)) (mi_tgt _ _ _ _ MI) RD RM) as (r' & W).
    rewrite W in ST. injection ST as <-. destruct PO as (CS & CT & MX).
    pose proof (append_ok p true H (m_tconf p) now (m_tisr p) (m_tgt s) l r' None CT (mi_good _ _ _ _ MI) (ex_intro _ _ (src_chain _ _ _ _ MI)) (mi_tgt _ _ _ _ MI) RD RM W) as (_ & LE & TP).
    unfold calm. cbn [set_link set_tgt m_src m_tgt m_old m_conn m_known m_last]. rewrite C.
    split; [exact LT|]. split; [lia|]. split; [exact OL|]. eexists n, _. split; [reflexivity|]. split; [|exact KN]. cbn [l_offsets]. apply Forall_app. split; [exact OF|]. constructor; [lia|constructor].
Qed.
Lemma calm_progress H s : MINV H s -> calm s -> rests p s \/ exists a s', exchange s a /\ allowed p s a /\ mstep p s a = Some s'.
Proof.
  intros MI CA. pose proof CA as (LT & LS & OL & n & k & C & OF & KN).
  destruct (must_push s n) eqn:MP.
  { right. exists Push. cbn [mstep]. rewrite C, MP. destruct (make_sync _ _ _); eexists; (split; [exact Logic.I|]); (split; [exact Logic.I|]); reflexivity. }
  destruct (get_leo (m_src s) =? m_last s) eqn:LA.
  2: { right. exists Hear. eexists. split; [exact Logic.I|]. split; [exact Logic.I|]. cbn [mstep]. rewrite C, MP, LA. reflexivity. }
  destruct k as [sy ch [|o os]].
  2: { right. exists Learn. cbn [mstep]. rewrite C, MP. destruct (note_offset _ _ _) as [kn [n'|]]; eexists; (split; [exact Logic.I|]); (split; [exact Logic.I|]); reflexivity. }
  destruct ch as [l|].
  { right. exists (Store Present 0).
    assert (ready p true H (get_leo (m_tgt s)) l) as RD.
    { pose proof (mi_links _ _ _ _ MI) as ML. unfold links in ML. rewrite C in ML. cbn [app] in ML. inversion ML as [|? ? (_ & A2) _]; subst. apply A2. reflexivity. }
    cbn [mstep link_of]. rewrite C. cbn [option_map snd]. unfold store_link. cbn [l_checked].
    destruct (leader_write _ _ _ _ _) as [r [e|]]; eexists; (split; [exact Logic.I|]); (split; [|reflexivity]);
      intros k0 l0; cbn [link_of]; rewrite C; cbn [option_map snd]; intros [= <-]; cbn [l_checked]; intros [= <-]; eapply ready_room; eassumption. }
  destruct sy as [|b sy].
  2: { right. exists (Check Present). cbn [mstep link_of]. rewrite C. cbn [option_map snd]. unfold check_link. cbn [l_syncs l_checked].
    destruct (aligned _ _); eexists; (split; [|split; [exact Logic.I|reflexivity]]); cbn [exchange]; unfold links; rewrite C; constructor; auto. }
  left. split; [congruence|]. intros a EX. destruct a as [now l|u|u|now ck|now ck| | |i| | | | | |[|i]|[|i] now]; try (exfalso; exact EX); cbn [mstep link_of]; rewrite C; cbn [option_map snd]; rewrite ?MP, ?LA; reflexivity.
Qed.

Lemma catches_up s0 s : runs p one_at_a_time (start p) s0 -> mstep p s0 Connect = Some s ->
  get_leo (m_src s) < 2 ^ 31 -> get_log_start (m_src s) <= get_leo (m_tgt s) -> Forall (fun k => l_checked k = None) (m_old s) ->
  (m_known s < 0 \/ get_log_start (m_src s) <= m_known s \/ m_last s = get_leo (m_src s)) ->
  (exists n, forall k s', steps_n p exchange k s s' -> (k <= n)%nat)
  /\ forall s', runs p exchange s s' -> m_src s' = m_src s /\ m_conn s' <> None
     /\ (rests p s' \/ exists a s'', exchange s' a /\ allowed p s' a /\ mstep p s' a = Some s'')
     /\ (rests p s' -> exists H, holds (m_src s) H /\ holds (m_tgt s') H).
Proof.
  intros R0 ST LT LS OL KN.
  assert (runs p one_at_a_time (start p) s) as R by (apply (runs_more p _ _ s0 s Connect); [exact R0|exact Logic.I|exact Logic.I|exact ST]).
  split; [apply bounded; exact R|]. destruct (reached_minv p PO true (fun _ => SZ) _ s (fun _ _ X => X) R) as (H & MI).
  assert (calm s) as CA.
  { cbn [mstep] in ST. destruct (m_conn s0); [discriminate|]. destruct (m_alone p && _); [discriminate|]. injection ST as <-. cbn [m_src m_tgt m_known m_last m_old] in *.
    split; [exact LT|]. split; [exact LS|]. split; [exact OL|]. eexists false, _. split; [reflexivity|]. cbn [l_offsets m_src m_known m_last]. split; [constructor; [exact LS|constructor]|].
    destruct KN as [KN|[KN|KN]]; auto. }
  intros s' RS. assert (m_src s' = m_src s /\ calm s' /\ exists H', MINV H' s') as (E & CA' & H' & MI').
  { clear KN LT LS OL ST R0 R. induction RS as [s|s s1 s2 a RS IH EX AL ST]; [split; [reflexivity|]; split; [exact CA|exists H; exact MI]|]. destruct (IH MI CA) as (E & CA1 & H1 & MI1).
    destruct (exchange_step _ _ _ _ MI1 EX AL ST) as (E2 & _ & H2 & MI2). split; [congruence|]. split; [exact (calm_step _ _ _ _ MI1 CA1 EX AL ST)|exists H2; exact MI2]. }
  split; [exact E|]. pose proof CA' as (_ & _ & _ & n & k & C & _). split; [congruence|]. split; [eapply calm_progress; eassumption|].
  intros RE. exists H'. split; [rewrite <- E; eapply src_holds; exact MI'|]. apply full_holds; [exact MI'|]. eapply at_rest_leo; eassumption.
Qed.
End Catch.

(** * A target whose next records are gone *)
Definition nothing_in (s : mirror) : Prop := Forall (fun k => l_syncs k = [] /\ l_checked k = None) (links s).
Lemma nothing_busy s : nothing_in s -> busy (links s) = 0%nat.
Proof. intros Q. apply busy_none. eapply Forall_impl; [|exact Q]. intros k (_ & X). exact X. Qed.
Lemma evicted_step p H s a s' : mparams_ok p -> minv p false H s -> nothing_in s -> get_leo (m_tgt s) < get_log_start (m_src s) -> allowed p s a -> mstep p s a = Some s' ->
  nothing_in s' /\ get_leo (m_tgt s') = get_leo (m_tgt s) /\ get_log_start (m_src s) <= get_log_start (m_src s').
Proof.
  intros PO MI Q LT AL ST. pose proof PO as (CS & CT & MX).
  assert (NL : nothing_in (leave s)) by (unfold nothing_in; rewrite links_leave; exact Q).
  assert (QC : forall n k, m_conn s = Some (n, k) -> (l_syncs k = [] /\ l_checked k = None) /\ Forall (fun k => l_syncs k = [] /\ l_checked k = None) (m_old s)).
  { intros n k C. unfold nothing_in, links in Q. rewrite C in Q. cbn [app] in Q. inversion Q; subst. auto. }
  assert (QL : forall w k, link_of s w = Some k -> l_syncs k = [] /\ l_checked k = None).
  { intros w k LO. destruct (link_split s w k LO) as (x & y & EQ & _). unfold nothing_in in Q. rewrite EQ in Q. apply Forall_app in Q as (_ & Q). inversion Q; assumption. }
  destruct a as [now l|u|u|now ck|now ck| | |i| | | | | |w|w now]; cbn [mstep] in ST.
  - destruct AL as (A1 & A2 & A3). destruct (leader_write (m_sconf p) now (m_sisr p) (m_src s) l) as [r' res] eqn:W. injection ST as <-.
    destruct (produce_ok p PO false H s now l r' res MI A1 A2 A3 W) as (new & dl & L & EH & I & CD & G & LE & LG).
    split; [exact Q|]. split; [reflexivity|]. cbn [set_src m_src fst]. lia.
  - injection ST as <-. split; [exact Q|]. split; [reflexivity|]. cbn [set_src m_src]. destruct (mi_src _ _ _ _ MI) as (dl & L & EH & I & CD).
    destruct (keep_up_inv (m_sconf p) (m_src s) u L CS I) as (dr & kept & E1 & I' & C1); [destruct u; [exact Logic.I|exact AL|exact Logic.I]|]. apply chain_le in C1. exact C1.
  - injection ST as <-. split; [exact Q|]. cbn [set_tgt m_src m_tgt]. rewrite keep_up_leo. lia.
  - destruct (load (m_sconf p) now (disk_of (m_src s) ck)) as [r|e] eqn:LD; [|discriminate]. injection ST as <-.
    destruct (mi_src _ _ _ _ MI) as (dl & L & EH & I & CD). destruct (reopen_inv' _ _ _ _ _ _ CS I LD) as (I' & LE & LSt & _).
    split; [exact NL|]. split; [reflexivity|]. cbn [m_src]. lia.
  - destruct (load (m_tconf p) now (disk_of (m_tgt s) ck)) as [r|e] eqn:LD; [|discriminate]. injection ST as <-.
    destruct (mi_tgt _ _ _ _ MI) as (n & dr & L & I & F & CD & SH). destruct (reopen_inv' _ _ _ _ _ _ CT I LD) as (I' & LE & LSt & _).
    split; [constructor|]. cbn [m_src m_tgt]. lia.
  - destruct (m_conn s) eqn:C; [discriminate|]. destruct (m_alone p && _); [discriminate|]. injection ST as <-. cbn [m_src m_tgt]. split; [|lia].
    unfold nothing_in, links in *. rewrite C in Q. cbn [m_conn m_old app] in *. constructor; [split; reflexivity|exact Q].
  - destruct (m_conn s) eqn:C; [|discriminate]. injection ST as <-. split; [exact NL|]. cbn [leave m_src m_tgt]. lia.
  - destruct (nth_error (m_old s) i) as [[sy [ch|] os]|] eqn:NE; try discriminate. injection ST as <-.
    destruct (link_split s (Former i) _ NE) as (x & y & EQ & SL). specialize (SL None). cbn [set_link app] in SL. split; [|cbn [set_link leave m_src m_tgt]; lia].
    unfold nothing_in in *. rewrite SL. rewrite EQ in Q. apply Forall_app in Q as (Q1 & Q2). inversion Q2; subst. apply Forall_app. auto.
  - destruct (m_conn s) as [[n k]|] eqn:C; [|discriminate]. destruct (must_push s n); [discriminate|]. destruct (_ =? _) in ST; [discriminate|]. injection ST as <-.
    destruct (QC _ _ eq_refl) as (Q1 & Q2). split; [constructor; assumption|cbn [set_link leave m_src m_tgt]; lia].
  - destruct (m_conn s) as [[n k]|] eqn:C; [|discriminate]. destruct (must_push s n); [discriminate|]. injection ST as <-.
    destruct (QC _ _ eq_refl) as (Q1 & Q2). split; [constructor; assumption|cbn [set_link leave m_src m_tgt]; lia].
  - destruct (m_conn s) as [[n [sy ch [|o os]]]|] eqn:C; try discriminate. destruct (must_push s n); [discriminate|]. destruct (QC _ _ eq_refl) as (Q1 & Q2).
    destruct (note_offset _ _ _) as [kn [n'|]]; injection ST as <-; (split; [constructor; assumption|cbn [set_link leave m_src m_tgt]; lia]).
  - destruct (m_conn s) as [[n k]|] eqn:C; [|discriminate]. destruct (must_push s n) eqn:MP; [|discriminate]. destruct (QC _ _ eq_refl) as (Q1 & Q2).
    pose proof (mi_known _ _ _ _ MI) as KN. destruct (mi_src _ _ _ _ MI) as (dl & L & EH & I & CD).
    destruct (make_sync (m_max p) (m_src s) (m_known s)) as [|b|] eqn:MS; injection ST as <-.
    + split; [constructor; assumption|cbn [set_link leave m_src m_tgt]; lia].
    + exfalso. unfold make_sync in MS. destruct (_ =? _); [discriminate|]. destruct (_ <? _); [|discriminate]. assert (m_known s < get_log_start (m_src s)) as KB by (pose proof (tgt_leo _ _ _ _ MI); lia). rewrite (read_below _ _ _ _ _ _ I KB) in MS. discriminate.
    + split; [exact NL|cbn [set_link leave m_src m_tgt]; lia].
  - destruct (m_conn s) as [[n [sy [ch|] os]]|] eqn:C; try discriminate. injection ST as <-. destruct (QC _ _ eq_refl) as (Q1 & Q2).
    split; [|cbn [set_link leave m_src m_tgt]; lia]. unfold nothing_in, links. cbn [set_link m_conn m_old]. rewrite C. constructor; assumption.
  - exfalso. destruct (link_of s w) as [k|] eqn:LO; [|discriminate]. destruct (QL w k LO) as (Q1 & Q2). unfold check_link in ST. rewrite Q1 in ST. discriminate.
  - exfalso. destruct (link_of s w) as [k|] eqn:LO; [|discriminate]. destruct (QL w k LO) as (Q1 & Q2). unfold store_link in ST. rewrite Q2 in ST. discriminate.
Qed.
Lemma evicted_stuck p s s' : mparams_ok p -> runs p one_at_a_time (start p) s ->
  get_leo (m_tgt s) < get_log_start (m_src s) -> Forall (fun k => l_syncs k = [] /\ l_checked k = None) (links s) ->
  runs p any_act s s' -> get_leo (m_tgt s') = get_leo (m_tgt s).
Proof.
  intros PO R LT Q RS. destruct (reached_minv p PO false ltac:(discriminate) _ s (fun _ _ X => X) R) as (H & MI). clear R.
  assert (get_leo (m_tgt s') = get_leo (m_tgt s) /\ nothing_in s' /\ get_leo (m_tgt s') < get_log_start (m_src s') /\ exists H', minv p false H' s') as X; [|apply X].
  induction RS as [s|s s1 s2 a RS IH _ AL ST]; [eauto 6|]. destruct (IH LT Q MI) as (E & Q1 & L1 & H1 & M1).
  destruct (evicted_step _ _ _ _ _ PO M1 Q1 L1 AL ST) as (Q2 & E2 & L2).
  assert (safe s1 a) as SA by (destruct a; cbn; auto; apply nothing_busy; exact Q1).
  destruct (mstep_ok p PO false ltac:(discriminate) _ _ _ _ M1 SA AL ST) as (new & M2 & _).
  split; [lia|]. split; [exact Q2|]. split; [lia|eauto].
Qed.

(** * Concrete runs *)
Definition roomb (r : replica) (l : list (batch bytes)) : bool :=
  (get_leo r + total l - m_base (r_active r) <? 2 ^ 31) && (get_leo r + total l <? 2 ^ 63).
Lemma roomb_ok r l : roomb r l = true -> room r l.
Proof. unfold roomb, room. intros H. apply andb_true_iff in H as (A & B). apply Z.ltb_lt in A, B. auto. Qed.
Definition allowedb (s : mirror) (a : act) : bool :=
  match a with
  | Produce _ l => roomb (m_src s) l
  | SrcUp (ByAge _) | TgtUp (ByAge _) => false
  | Store w _ => match link_of s w with Some k => match l_checked k with Some l => roomb (m_tgt s) l | None => true end | None => true end
  | _ => true
  end.
Definition fine (a : act) : Prop := match a with Produce _ l => Forall raw_batch_ok l /\ Forall (fun b => has_schema (b_hdr b) = false) l | _ => True end.
Lemma allowedb_ok p s a : fine a -> allowedb s a = true -> allowed p s a.
Proof.
  intros F A. destruct a as [now l|[| |]|[| |]|now ck|now ck| | |i| | | | | |w|w now]; cbn in *; try exact Logic.I; try discriminate.
  - destruct F as (F1 & F2). auto using roomb_ok.
  - intros k l E1 E2. rewrite E1, E2 in A. apply roomb_ok. exact A.
Qed.
Definition freeb (s : mirror) : bool := forallb (fun k => negb (is_checked k)) (links s).
Lemma freeb_ok s : freeb s = true -> Forall (fun k => l_checked k = None) (links s).
Proof.
  unfold freeb. rewrite forallb_forall, Forall_forall. intros H k I. specialize (H k I). unfold is_checked in H. destruct (l_checked k); [discriminate|reflexivity].
Qed.
Definition anyb (s : mirror) (a : act) : bool := true.
Definition oneb (s : mirror) (a : act) : bool := match a with Check _ => freeb s | _ => true end.
Definition exb (s : mirror) (a : act) : bool := match a with Hear | Learn | Push | Store Present _ => true | Check Present => freeb s | _ => false end.
Lemma oneb_ok s a : oneb s a = true -> one_at_a_time s a.
Proof. destruct a; cbn; auto. apply freeb_ok. Qed.
Lemma exb_ok s a : exb s a = true -> exchange s a.
Proof. destruct a as [| | | | | | | | | | | | |[|]|[|]]; cbn; try discriminate; auto. apply freeb_ok. Qed.
Fixpoint drive (p : mparams) (f : mirror -> act -> bool) (s : mirror) (l : list act) : option mirror :=
  match l with
  | [] => Some s
  | a :: t => if f s a && allowedb s a then match mstep p s a with Some s1 => drive p f s1 t | None => None end else None
  end.
Definition final (p : mparams) (f : mirror -> act -> bool) (s : mirror) (l : list act) : mirror := match drive p f s l with Some s' => s' | None => s end.
Lemma runs_app p P s s1 s2 : runs p P s s1 -> runs p P s1 s2 -> runs p P s s2.
Proof. intros A B. induction B; [exact A|]. eapply runs_more; [apply IHB; exact A|eassumption..]. Qed.
Lemma drive_runs p f (P : mirror -> act -> Prop) l : (forall s a, f s a = true -> P s a) -> Forall fine l -> forall s s', drive p f s l = Some s' -> runs p P s s'.
Proof.
  intros FP F. induction F as [|a l Fa F IH]; intros s s' D; cbn [drive] in D; [injection D as <-; apply runs_none|].
  destruct (f s a && allowedb s a) eqn:C; [|discriminate]. apply andb_true_iff in C as (C1 & C2). destruct (mstep p s a) as [s1|] eqn:ST; [|discriminate].
  eapply runs_app; [|apply IH; exact D]. eapply runs_more; [apply runs_none|apply FP; exact C1|apply allowedb_ok; assumption|exact ST].
Qed.
Definition mp (c : config) (max : Z) (keeps alone : bool) : mparams := mkMp c c 1 1 max keeps alone.
Lemma mp_ok c max k a : config_ok c -> 0 <= max -> mparams_ok (mp c max k a).
Proof. intros A B. split; [exact A|]. split; [exact A|exact B]. Qed.
Definition long2 : list (batch bytes) := [demo 1 50].
Lemma long2_ok : Forall raw_batch_ok long2.
Proof. constructor; [apply demo_ok; [closed_range|vm_compute; reflexivity]|constructor]. Qed.
Lemma fine_long : fine (Produce 0 long).
Proof. split; [exact long_ok|repeat constructor]. Qed.
Lemma fine_long2 : fine (Produce 0 long2).
Proof. split; [exact long2_ok|repeat constructor]. Qed.
Ltac fine_tac := repeat (constructor; [first [exact fine_long|exact fine_long2|exact Logic.I]|]); constructor.

(** Records are copied, and more records. *)
Definition round : list act := [Learn; Push; Check Present; Store Present 0; Learn].
Definition copy_acts : list act := [Produce 0 long; Connect; Hear] ++ round ++ [Produce 0 long2].
Definition copy_p : mparams := mp above_c 1000 true false.
Definition copied : mirror := final copy_p oneb (start copy_p) copy_acts.

Lemma copied_runs : runs copy_p one_at_a_time (start copy_p) copied.
Proof. apply (drive_runs copy_p oneb one_at_a_time copy_acts oneb_ok); [fine_tac|vm_compute; reflexivity]. Qed.
Lemma copied_ex : mparams_ok copy_p /\ c_seg_max (m_sconf copy_p) <= m_max copy_p /\ runs copy_p one_at_a_time (start copy_p) copied
  /\ get_leo (m_src copied) = 2 /\ get_leo (m_tgt copied) = 1.
Proof. split; [apply mp_ok; [exact above_c_ok|lia]|]. split; [vm_compute; congruence|]. split; [exact copied_runs|]. vm_compute. split; reflexivity. Qed.

(** A message that is cut. *)
Definition cut_mp : mparams := mp above_c 80 true false.
Definition cut_acts : list act := [Produce 0 long; Connect] ++ round.
Lemma mirror_cut_refuted : exists p s, mparams_ok p /\ runs p one_at_a_time (start p) s /\ get_leo (m_tgt s) = get_leo (m_src s)
  /\ get_log_start (m_src s) = get_log_start (m_tgt s) /\ zlen (log_bytes (m_tgt s)) < zlen (log_bytes (m_src s)).
Proof.
  exists cut_mp, (final cut_mp oneb (start cut_mp) cut_acts). split; [apply mp_ok; [exact above_c_ok|lia]|].
  split; [apply (drive_runs cut_mp oneb one_at_a_time cut_acts oneb_ok); [fine_tac|vm_compute; reflexivity]|]. vm_compute. repeat split; reflexivity.
Qed.

(** Two tasks of the target at once. *)
Definition race_acts : list act :=
  [Produce 0 long; Connect; Learn; Push; Check Present; Drop; Connect; Learn; Push; Check Present; Store Present 0; Store (Former 0) 0].
Lemma mirror_race_refuted : exists p s, mparams_ok p /\ c_seg_max (m_sconf p) <= m_max p /\ runs p any_act (start p) s
  /\ get_leo (m_src s) = 1 /\ get_leo (m_tgt s) = 2.
Proof.
  exists copy_p, (final copy_p anyb (start copy_p) race_acts). split; [apply mp_ok; [exact above_c_ok|lia]|]. split; [vm_compute; congruence|].
  split; [apply (drive_runs copy_p anyb any_act race_acts (fun _ _ _ => Logic.I)); [fine_tac|vm_compute; reflexivity]|]. vm_compute. split; reflexivity.
Qed.

(** The source goes to a replica that lacks a record, which was not committed
    but copied. *)
Definition fail_p : mparams := mkMp above_c above_c 2 1 1000 true false.
Definition before : mirror := final fail_p oneb (start fail_p) ([Produce 0 long; Connect] ++ round).
Definition taken : mirror := mkMirror (fresh above_c 0) (m_tgt before) (-1) 0 None (m_old (leave before)).
Definition after_acts : list act := [Produce 0 long2; Gone 0; Connect; Hear; Learn].
Definition after : mirror := final fail_p oneb taken after_acts.
Lemma fail_ok : mparams_ok fail_p.
Proof. split; [exact above_c_ok|]. split; [exact above_c_ok|]. cbn. lia. Qed.
Lemma before_runs : runs fail_p one_at_a_time (start fail_p) before.
Proof. apply (drive_runs fail_p oneb one_at_a_time ([Produce 0 long; Connect] ++ round) oneb_ok); [fine_tac|vm_compute; reflexivity]. Qed.
Lemma fresh_holds c : config_ok c -> holds (fresh c 0) [].
Proof. intros CO. pose proof (fresh_inv c 0 CO) as I. destruct (inv_stores _ _ _ I) as (S & _). split; [reflexivity|]. exists [], []. split; [reflexivity|]. split; [exact S|reflexivity]. Qed.
Lemma conn_rests p s n : m_conn s = Some (n, mkLink [] None []) -> must_push s n = false -> m_last s = get_leo (m_src s) -> rests p s.
Proof.
  intros C MP LA. split; [congruence|]. intros a EX.
  destruct a as [now l|u|u|now ck|now ck| | |i| | | | | |[|i]|[|i] now]; try (exfalso; exact EX); cbn [mstep link_of]; rewrite C; cbn [option_map snd]; rewrite ?MP, ?LA, ?Z.eqb_refl; reflexivity.
Qed.
Lemma mirror_failover_refuted : exists p s r s1 s2, mparams_ok p /\ c_seg_max (m_sconf p) <= m_max p /\ runs p one_at_a_time (start p) s
  /\ failover s r s1 /\ runs p one_at_a_time s1 s2 /\ rests p s2
  /\ get_leo (m_tgt s2) = get_leo (m_src s2) /\ get_log_start (m_tgt s2) = get_log_start (m_src s2) /\ log_bytes (m_tgt s2) <> log_bytes (m_src s2).
Proof.
  exists fail_p, before, (fresh above_c 0), taken, after. split; [exact fail_ok|]. split; [vm_compute; congruence|]. split; [exact before_runs|]. split.
  - split; [|split; [vm_compute; congruence|reflexivity]]. destruct (mirror_prefix fail_p before fail_ok ltac:(vm_compute; congruence) before_runs) as (H & n & HO & _).
    exists H, 0%nat. split; [exact HO|]. apply fresh_holds. exact above_c_ok.
  - split; [apply (drive_runs fail_p oneb one_at_a_time after_acts oneb_ok); [fine_tac|vm_compute; reflexivity]|].
    split; [apply (conn_rests fail_p after false); vm_compute; reflexivity|].
    split; [vm_compute; reflexivity|]. split; [vm_compute; reflexivity|]. vm_compute. discriminate.
Qed.

(** A connection at which everything is copied. *)
Definition up_acts : list act := [Produce 0 long; Produce 0 long2].
Definition up0 : mirror := final copy_p oneb (start copy_p) up_acts.
Definition up1 : mirror := final copy_p oneb up0 [Connect].
Definition up_more : list act := [Hear; Learn; Push; Check Present; Store Present 0; Learn].
Definition up2 : mirror := final copy_p exb up1 up_more.
Lemma up_ex : mparams_ok copy_p /\ c_seg_max (m_sconf copy_p) <= m_max copy_p /\ takes_all copy_p /\ runs copy_p one_at_a_time (start copy_p) up0
  /\ mstep copy_p up0 Connect = Some up1 /\ get_leo (m_src up1) < 2 ^ 31 /\ get_log_start (m_src up1) <= get_leo (m_tgt up1) /\ Forall (fun k => l_checked k = None) (m_old up1) /\ m_known up1 < 0
  /\ runs copy_p exchange up1 up2 /\ rests copy_p up2 /\ get_leo (m_tgt up1) = 0 /\ get_leo (m_tgt up2) = 2.
Proof.
  split; [apply mp_ok; [exact above_c_ok|lia]|]. split; [vm_compute; congruence|]. split; [split; vm_compute; congruence|].
  split; [apply (drive_runs copy_p oneb one_at_a_time up_acts oneb_ok); [fine_tac|vm_compute; reflexivity]|].
  split; [vm_compute; reflexivity|]. split; [vm_compute; reflexivity|]. split; [vm_compute; congruence|]. split; [vm_compute; constructor|]. split; [vm_compute; reflexivity|].
  split; [apply (drive_runs copy_p exb exchange up_more exb_ok); [fine_tac|vm_compute; reflexivity]|].
  split; [apply (conn_rests copy_p up2 false); vm_compute; reflexivity|].
  split; vm_compute; reflexivity.
Qed.

(** The source removes records that the target does not have. *)
Definition gone_p : mparams := mp (mkConfig 200 1000 10 100 100 10) 1000 true false.
Definition gone_acts : list act := [Produce 0 long; Produce 0 long; Produce 0 long; Produce 0 long; SrcUp BySize; Connect].
Definition gone : mirror := final gone_p oneb (start gone_p) gone_acts.
Lemma gone_ok : mparams_ok gone_p.
Proof. apply mp_ok; [|lia]. unfold config_ok. cbn. lia. Qed.
Lemma gone_runs : runs gone_p one_at_a_time (start gone_p) gone.
Proof. apply (drive_runs gone_p oneb one_at_a_time gone_acts oneb_ok); [fine_tac|vm_compute; reflexivity]. Qed.
Lemma mirror_evicted_refuted : exists p s, mparams_ok p /\ c_seg_max (m_sconf p) <= m_max p /\ takes_all p /\ runs p one_at_a_time (start p) s
  /\ get_leo (m_tgt s) < get_leo (m_src s) /\ forall s', runs p any_act s s' -> get_leo (m_tgt s') = get_leo (m_tgt s).
Proof.
  exists gone_p, gone. split; [exact gone_ok|]. split; [vm_compute; congruence|]. split; [split; vm_compute; congruence|]. split; [exact gone_runs|]. split; [vm_compute; reflexivity|].
  intros s' RS. apply (evicted_stuck gone_p gone s' gone_ok gone_runs); [vm_compute; reflexivity| |exact RS].
  vm_compute. constructor; [split; reflexivity|constructor].
Qed.

(** After a round in which everything was copied and acknowledged, the next
    message starts with records that the target already has. *)
Definition again : mirror := final copy_p oneb up2 [Produce 0 long; Hear; Push].
Lemma mirror_again_refuted : exists p s now l s1 s2 s3 k b, mparams_ok p /\ c_seg_max (m_sconf p) <= m_max p /\ runs p one_at_a_time (start p) s /\ rests p s
  /\ get_leo (m_tgt s) = get_leo (m_src s)
  /\ mstep p s (Produce now l) = Some s1 /\ mstep p s1 Hear = Some s2 /\ mstep p s2 Push = Some s3
  /\ m_conn s3 = Some (false, k) /\ l_syncs k = [b] /\ rset_base_offset (receive b) < get_leo (m_tgt s3).
Proof.
  exists copy_p, up2, 0, long.
  exists (final copy_p oneb up2 [Produce 0 long]), (final copy_p oneb up2 [Produce 0 long; Hear]), again.
  exists (match m_conn again with Some (_, k) => k | None => mkLink [] None [] end), (match m_conn again with Some (_, mkLink (b :: _) _ _) => b | _ => [] end).
  destruct up_ex as (A & B & _ & R0 & CN & _ & _ & _ & _ & RX & RE & _).
  split; [exact A|]. split; [exact B|].
  split. { apply (runs_app copy_p one_at_a_time (start copy_p) up1 up2); [apply (runs_more copy_p one_at_a_time (start copy_p) up0 up1 Connect); [exact R0|exact Logic.I|exact Logic.I|exact CN]|].
    clear - RX. induction RX; [apply runs_none|]. eapply runs_more; [eassumption|eapply exchange_one; eassumption|eassumption..]. }
  split; [exact RE|]. split; [vm_compute; reflexivity|]. split; [vm_compute; reflexivity|]. split; [vm_compute; reflexivity|]. split; [vm_compute; reflexivity|].
  split; [vm_compute; reflexivity|]. split; vm_compute; reflexivity.
Qed.
