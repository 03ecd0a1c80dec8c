From Verif Require Import StorageSpec RecordSpec ReplicationSpec RecordProofs StorageProofs ReplicaProofs StorageClaims ReplicationProofs ClusterProofs ReplicationClaims WireProofs ListFacts MirrorModel MirrorSpec.

(** * Links *)
Lemma set_nth_split {A} i (l : list A) k : nth_error l i = Some k ->
  exists a b, l = a ++ k :: b /\ forall x, set_nth i x l = a ++ (match x with Some y => [y] | None => [] end) ++ b.
Proof.
  revert l. induction i as [|i IH]; intros [|y l] E; cbn in E; try discriminate.
  - injection E as ->. exists [], l. split; [reflexivity|]. intros [z|]; reflexivity.
  - destruct (IH _ E) as (a & b & -> & H). exists (y :: a), b. split; [reflexivity|]. intros x. cbn [set_nth]. rewrite H. reflexivity.
Qed.
Lemma link_split s w k : link_of s w = Some k ->
  exists a b, links s = a ++ k :: b /\ forall x, links (set_link s w x) = a ++ (match x with Some y => [y] | None => [] end) ++ b.
Proof.
  destruct w as [|i]; cbn [link_of].
  - destruct (m_conn s) as [[n k0]|] eqn:C; [|discriminate]. intros [= ->]. exists [], (m_old s). unfold links. rewrite C. split; [reflexivity|].
    intros [x|]; cbn [set_link m_conn m_old]; rewrite C; reflexivity.
  - intros E. destruct (set_nth_split _ _ _ E) as (a & b & EQ & H).
    exists ((match m_conn s with Some (_, k0) => [k0] | None => [] end) ++ a), b. unfold links. split; [rewrite EQ, <- app_assoc; reflexivity|].
    intros x. cbn [set_link m_conn m_old]. rewrite H, <- app_assoc. reflexivity.
Qed.
Lemma links_leave s : links (leave s) = links s.
Proof. unfold links, leave. cbn [m_conn m_old]. destruct (m_conn s) as [[n k]|]; reflexivity. Qed.

Definition is_checked (k : link) : bool := match l_checked k with Some _ => true | None => false end.
Definition busy (l : list link) : nat := length (filter is_checked l).
Lemma busy_app a b : busy (a ++ b) = (busy a + busy b)%nat.
Proof. unfold busy. rewrite filter_app, app_length. reflexivity. Qed.
Lemma busy_cons k l : busy (k :: l) = ((if is_checked k then 1 else 0) + busy l)%nat.
Proof. unfold busy. cbn [filter]. destruct (is_checked k); reflexivity. Qed.
Lemma busy_none l : busy l = 0%nat <-> Forall (fun k => l_checked k = None) l.
Proof.
  induction l as [|k l IH]; [split; [constructor|reflexivity]|]. rewrite busy_cons. unfold is_checked. destruct (l_checked k) eqn:E.
  - split; [intros; lia|]. intros H. inversion H; congruence.
  - cbn [Nat.add]. rewrite IH. split; [constructor; assumption|intros H; inversion H; assumption].
Qed.

Section Mirror.
Variable p : mparams.
Hypothesis PO : mparams_ok p.
Variable full : bool.
Hypothesis FULL : full = true -> c_seg_max (m_sconf p) <= m_max p.

Definition slice_ok (H : list (batch bytes)) (b : bytes) : Prop :=
  exists pre sel rest n, H = pre ++ sel ++ rest /\ b = ztake n (encs sel) /\ zlen (encs sel) <= c_seg_max (m_sconf p) /\ 0 <= n
    /\ (full = true -> zlen (encs sel) <= n).
Definition ready (H : list (batch bytes)) (t : Z) (l : list (batch bytes)) : Prop :=
  total_records l <> 0 /\ rset_base_offset l = t
  /\ exists pre sel rest k, H = pre ++ sel ++ rest /\ zlen (encs sel) <= c_seg_max (m_sconf p) /\ Forall2 (rel full) (firstn k sel) l.
Definition link_ok (H : list (batch bytes)) (t : Z) (k : link) : Prop :=
  Forall (slice_ok H) (l_syncs k) /\ forall l, l_checked k = Some l -> ready H t l.

Record minv (H : list (batch bytes)) (s : mirror) : Prop := {
  mi_src : exists dl L, H = dl ++ L /\ inv (m_sconf p) (m_src s) L /\ chain 0 dl (get_log_start (m_src s));
  mi_good : Forall good H;
  mi_tgt : foll full H (m_tconf p) (m_tgt s);
  mi_links : Forall (link_ok H (get_leo (m_tgt s))) (links s);
  mi_one : (busy (links s) <= 1)%nat;
  mi_offs : forall n k, m_conn s = Some (n, k) -> Forall (fun o => 0 <= o <= get_leo (m_tgt s)) (l_offsets k);
  mi_known : m_known s = -1 \/ 0 <= m_known s <= get_leo (m_tgt s);
  mi_last : 0 <= m_last s <= get_leo (m_src s);
  mi_token : forall n k, m_conn s = Some (n, k) ->
    l_syncs k <> [] \/ l_checked k <> None \/ l_offsets k <> []
    \/ (0 <= m_known s /\ (n = true \/ m_last s <> get_leo (m_src s) \/ get_leo (m_tgt s) = get_leo (m_src s)));
}.

Lemma src_chain H s : minv H s -> chain 0 H (get_leo (m_src s)).
Proof.
  intros MI. destruct (mi_src _ _ MI) as (dl & L & -> & I & CH). destruct (inv_stores _ _ _ I) as ((_ & CL) & _). eapply chain_app; eassumption.
Qed.
Lemma tgt_leo H s : minv H s -> 0 <= get_leo (m_tgt s) <= get_leo (m_src s).
Proof.
  intros MI. destruct (foll_chain _ _ _ _ (mi_tgt _ _ MI)) as (n & C). pose proof (src_chain _ _ MI) as CL.
  destruct (chain_firstn n _ _ _ CL) as (m & A & B). pose proof (chain_fun _ _ _ _ C A). apply chain_le in C. lia.
Qed.
Lemma slice_grow H new b : slice_ok H b -> slice_ok (H ++ new) b.
Proof. intros (pre & sel & rest & n & -> & X). exists pre, sel, (rest ++ new), n. rewrite <- !app_assoc. auto. Qed.
Lemma ready_grow H new t l : ready H t l -> ready (H ++ new) t l.
Proof. intros (A & B & pre & sel & rest & n & -> & X). split; [exact A|]. split; [exact B|]. exists pre, sel, (rest ++ new), n. rewrite <- !app_assoc. auto. Qed.
Lemma link_grow H new t k : link_ok H t k -> link_ok (H ++ new) t k.
Proof.
  intros (A & B). split; [eapply Forall_impl; [|exact A]; intros b; apply slice_grow|]. intros l E. apply ready_grow. auto.
Qed.

(** The write of a record set that was found to be aligned. *)
Lemma append_ok H c now isr r l r' res : config_ok c -> Forall good H -> (exists e, chain 0 H e) -> foll full H c r -> ready H (get_leo r) l -> room r l ->
  leader_write c now isr r l = (r', res) ->
  match res with
  | None => foll full H c r' /\ get_leo r' = get_leo r + total l /\ 0 < total l
  | Some _ => r' = r
  end.
Proof.
  intros CO G (e & CL) F (T & B & pre & sel & rest & k & EH & _ & RL) RM W.
  unfold leader_write in W. destruct (total_records l =? 0) eqn:TZ; [lia|]. clear TZ. rewrite total_records_eq in T.
  assert (Forall raw_batch_ok sel /\ Forall (fun b => has_schema (b_hdr b) = false) sel) as (OKs & NS).
  { rewrite EH in G. apply Forall_app in G as (_ & G). apply Forall_app in G as (G & _).
    split; eapply Forall_impl; try exact G; intros b (X & Y); assumption. }
  assert (Forall raw_batch_ok l) as OKl by (eapply rel_oks; [apply Forall_firstn; exact OKs|exact RL]).
  assert (Forall (fun b => has_schema (b_hdr b) = false) l) as NSl by (eapply rel_schemas; [apply Forall_firstn; exact NS|exact RL]).
  rewrite EH in CL. apply chain_split in CL as (x & CP & CL). apply chain_split in CL as (y & CS & CR).
  assert (exists z, chain x l z) as (z & Cl).
  { destruct (chain_firstn k _ _ _ CS) as (z & CZ & _). exists z. apply (rel_chain _ _ _ RL). assumption. }
  assert (x = get_leo r) as EX.
  { destruct l as [|b l]; [cbn in T; lia|]. cbn [rset_base_offset] in B. cbn [chain] in Cl. lia. }
  subst x.
  destruct F as (n0 & dr & L & I & F & CH & SHT).
  assert (Forall (fun b => 0 < records_len b /\ has_schema (b_hdr b) = false) l) as Gl.
  { pose proof (chain_pos _ _ _ Cl) as P. clear - P NSl. induction P; inversion NSl; subst; constructor; auto. }
  pose proof (all_or_nothing c r now l L (isr =? 1) CO I OKl RM SHT Gl) as AN. rewrite W in AN.
  destruct res as [e0|]; [exact AN|].
  pose proof I as (s0 & ls & act & EL & IA).
  destruct (write_recordset_at _ _ _ _ _ _ _ _ _ _ CO IA OKl RM W) as (j & ls' & act' & IA' & J & EC & LEO & EJ & HW1).
  subst j. rewrite firstn_all in *. rewrite (number_chain_id _ _ _ Cl) in EC.
  assert (inv c r' (L ++ l)) as I1.
  { exists s0, ls', act'. split; [|assumption]. rewrite EC, EL. reflexivity. }
  split; [|split; [exact LEO|pose proof (total_nonneg l); lia]].
  assert (firstn n0 H = pre) as EP.
  { eapply (chain_prefix _ 0 pre (skipn n0 H) (sel ++ rest) (get_leo r)); [rewrite firstn_skipn; assumption| |assumption].
    apply (rel_chain _ _ _ F). destruct (inv_stores _ _ _ I) as ((_ & CL) & _). eapply chain_app; eassumption. }
  exists (length (pre ++ firstn k sel)), dr, (L ++ l). split; [assumption|]. split; [|split; [|exact AN]].
  + rewrite app_assoc. rewrite EP in F.
    assert (firstn (length (pre ++ firstn k sel)) H = pre ++ firstn k sel) as ->.
    { rewrite EH. rewrite <- (firstn_skipn k sel) at 2. rewrite <- !app_assoc, app_assoc. rewrite firstn_app, firstn_all, Nat.sub_diag. cbn [firstn]. rewrite app_nil_r. reflexivity. }
    apply Forall2_app; assumption.
  + rewrite (log_start_ok _ _ _ _ _ IA'), <- (log_start_ok _ _ _ _ _ IA). assumption.
Qed.

(** The source grows. *)
Lemma produce_ok H s now l r' res : minv H s -> Forall raw_batch_ok l -> Forall (fun b => has_schema (b_hdr b) = false) l -> room (m_src s) l ->
  leader_write (m_sconf p) now (m_sisr p) (m_src s) l = (r', res) ->
  exists new dl L, H ++ new = dl ++ L /\ inv (m_sconf p) r' L /\ chain 0 dl (get_log_start r') /\ Forall good new /\ get_leo (m_src s) <= get_leo r' /\ get_log_start r' = get_log_start (m_src s).
Proof.
  intros MI OK NS RM W. destruct PO as (CO & _). destruct (mi_src _ _ MI) as (dl & L & EH & I & CD).
  unfold leader_write in W. destruct (total_records l =? 0).
  { injection W as <- <-. exists [], dl, L. rewrite app_nil_r. auto 7 using Forall_nil, Z.le_refl. }
  pose proof I as (s0 & ls & ac & EL & IA).
  destruct (write_recordset_at _ _ _ _ _ _ _ _ _ _ CO IA OK RM W) as (j & ls' & ac' & IA' & J & EC & LEO & D).
  set (new := number (get_leo (m_src s)) (firstn j l)) in *.
  assert (inv (m_sconf p) r' (L ++ new)) as I' by (exists s0, ls', ac'; split; [rewrite EC, EL; reflexivity|assumption]).
  pose proof (inv_leo63 full _ _ _ I) as B1. pose proof (inv_leo63 full _ _ _ I') as B2. pose proof (total_nonneg (firstn j l)) as TN.
  assert (chain (get_leo (m_src s)) new (get_leo r')) as CN.
  { destruct (inv_stores _ _ _ I') as ((_ & C') & _). apply chain_split in C' as (m & C1 & C2).
    destruct (inv_stores _ _ _ I) as ((_ & C) & _). rewrite (log_start_ok _ _ _ _ _ IA'), <- (log_start_ok _ _ _ _ _ IA) in C1. rewrite (chain_fun _ _ _ _ C1 C) in C2. assumption. }
  exists new, dl, (L ++ new). split; [rewrite EH, app_assoc; reflexivity|]. split; [exact I'|].
  assert (get_log_start r' = get_log_start (m_src s)) as LG by (rewrite (log_start_ok _ _ _ _ _ IA'), (log_start_ok _ _ _ _ _ IA); reflexivity).
  split; [|split; [|split; [lia|exact LG]]].
  - rewrite (log_start_ok _ _ _ _ _ IA'), <- (log_start_ok _ _ _ _ _ IA). assumption.
  - eapply (number_good full); [exact CN|apply (in_s_pos full); assumption|apply (in_s_pos full); assumption|apply Forall_firstn; assumption|apply Forall_firstn; assumption].
Qed.

Definition op_of (u : upkeep) : op := match u with BySize => CleanSize | ByAge now => CleanTtl now | Commit o => SetHw o end.
Lemma keep_up_exec c r u : exec c r (op_of u) = Done (keep_up c r u).
Proof. destruct u; reflexivity. Qed.
Lemma keep_up_short c r u : r_short (keep_up c r u) = r_short r.
Proof.
  destruct u; cbn [keep_up]; [unfold enforce_size; cbv zeta; destruct (0 <? _); reflexivity|unfold enforce_ttl; destruct (filter _ _); reflexivity|reflexivity].
Qed.
Lemma keep_up_leo c r u : get_leo (keep_up c r u) = get_leo r.
Proof.
  destruct u; cbn [keep_up]; [unfold enforce_size; cbv zeta; destruct (0 <? _); reflexivity|unfold enforce_ttl; destruct (filter _ _); reflexivity|reflexivity].
Qed.
Lemma keep_up_inv c r u L : config_ok c -> inv c r L -> op_ok c r (op_of u) ->
  exists dropped kept, L = dropped ++ kept /\ inv c (keep_up c r u) kept /\ chain (get_log_start r) dropped (get_log_start (keep_up c r u)).
Proof.
  intros CO I OK. destruct (ReplicaProofs.step _ _ _ _ _ CO I OK (keep_up_exec c r u)) as (L' & I' & dr & kept & new & E1 & E2 & C1 & C2 & AB & _).
  assert (new = []) as -> by (destruct u; exact AB). rewrite app_nil_r in E2. subst L'. eauto.
Qed.
Lemma reopen_inv' c r now k L r' : config_ok c -> inv c r L -> load c now (disk_of r k) = Done r' ->
  inv c r' L /\ get_leo r' = get_leo r /\ get_log_start r' = get_log_start r /\ r_short r' = false.
Proof.
  intros CO I LD. pose proof I as (s0 & ls & ac & EL & IA).
  destruct (restart_at c now s0 _ ls ac k CO IA) as (r1 & I1 & LEO & HL & S1 & HW & LD1). rewrite LD1 in LD.
  destruct (_ <? _) in LD; inversion LD; subst r1. split; [exists s0, ls, ac; auto|]. split; [exact LEO|]. split; [|exact S1].
  rewrite (log_start_ok _ _ _ _ _ I1), (log_start_ok _ _ _ _ _ IA). reflexivity.
Qed.

Lemma make_sync_ok H s b : minv H s -> make_sync (m_max p) (m_src s) (m_known s) = Records b -> slice_ok H b.
Proof.
  intros MI. destruct PO as (CO & _ & MX). destruct (mi_src _ _ MI) as (dl & L & EH & I & CD). unfold make_sync.
  destruct (_ =? _) eqn:E; [discriminate|]. destruct (_ <? _) eqn:LT; [|discriminate].
  destruct (Z.lt_ge_cases (m_known s) (get_log_start (m_src s))) as [LO|LO].
  { rewrite (read_below _ _ _ _ _ _ I LO). discriminate. }
  destruct (read_sized _ _ _ (m_known s) (m_max p) CO I ltac:(lia)) as (pre & sel & rest & EL & SZ & RD & _). rewrite RD. cbn [sl_bytes].
  intros [= <-]. exists (dl ++ pre), sel, rest, (m_max p). split; [rewrite EH, EL, <- app_assoc; reflexivity|]. split; [reflexivity|].
  split; [exact SZ|]. split; [exact MX|]. intros FU. specialize (FULL FU). lia.
Qed.

Lemma check_ready H s b : minv H s -> slice_ok H b -> aligned (m_tgt s) (receive b) = true -> ready H (get_leo (m_tgt s)) (receive b).
Proof.
  intros MI (pre & sel & rest & n & EH & -> & SZ & N & FU) AL. unfold aligned in AL. apply andb_true_iff in AL as (A1 & A2). apply negb_true_iff in A1.
  split; [apply Z.eqb_neq in A1; exact A1|]. split; [apply Z.eqb_eq; exact A2|].
  assert (Forall raw_batch_ok sel) as OKs.
  { pose proof (mi_good _ _ MI) as G. rewrite EH in G. apply Forall_app in G as (_ & G). apply Forall_app in G as (G & _). eapply Forall_impl; [|exact G]. intros x (X & _). exact X. }
  assert (zlen (encs sel) < 2 ^ 31) as SZ' by (destruct PO as ((CS & _) & _); lia).
  destruct (receive_rel full sel n OKs SZ' N FU) as (k & RL). exists pre, sel, rest, k. auto.
Qed.

(** The invariant when only the connection changes. *)
Lemma minv_conn H s s' : minv H s -> m_src s' = m_src s -> m_tgt s' = m_tgt s ->
  Forall (link_ok H (get_leo (m_tgt s))) (links s') -> (busy (links s') <= 1)%nat ->
  (m_known s' = -1 \/ 0 <= m_known s' <= get_leo (m_tgt s)) -> 0 <= m_last s' <= get_leo (m_src s) ->
  (forall n k, m_conn s' = Some (n, k) -> Forall (fun o => 0 <= o <= get_leo (m_tgt s)) (l_offsets k)
     /\ (l_syncs k <> [] \/ l_checked k <> None \/ l_offsets k <> []
    \/ (0 <= m_known s' /\ (n = true \/ m_last s' <> get_leo (m_src s) \/ get_leo (m_tgt s) = get_leo (m_src s))))) -> minv H s'.
Proof.
  intros MI E1 E2 LK ON KN LS CN. constructor; rewrite ?E1, ?E2; try assumption; try apply MI; intros n k E; apply (CN n k E).
Qed.

(** An action of the run, and what it does to the two logs. *)
Definition safe (s : mirror) (a : act) : Prop := match a with Check _ => busy (links s) = 0%nat | _ => True end.
Lemma mstep_ok H s a s' : minv H s -> safe s a -> allowed p s a -> mstep p s a = Some s' ->
  exists new, minv (H ++ new) s' /\ get_leo (m_src s) <= get_leo (m_src s') /\ get_leo (m_tgt s) <= get_leo (m_tgt s').
Proof.
  intros MI SF AL ST. pose proof PO as (CS & CT & MX). pose proof (tgt_leo _ _ MI) as TL.
  assert (SAME : forall s'', minv H s'' -> m_src s'' = m_src s -> m_tgt s'' = m_tgt s ->
    exists new, minv (H ++ new) s'' /\ get_leo (m_src s) <= get_leo (m_src s'') /\ get_leo (m_tgt s) <= get_leo (m_tgt s'')).
  { intros s'' X -> ->. exists []. rewrite app_nil_r. split; [exact X|lia]. }
  assert (LV : forall kn, (kn = -1 \/ 0 <= kn <= get_leo (m_tgt s)) -> minv H (leave (mkMirror (m_src s) (m_tgt s) kn (m_last s) (m_conn s) (m_old s)))).
  { intros kn KN. assert (LK : links (leave (mkMirror (m_src s) (m_tgt s) kn (m_last s) (m_conn s) (m_old s))) = links s) by (rewrite links_leave; reflexivity).
    apply (minv_conn H s); try reflexivity; [exact MI|rewrite LK; apply MI|rewrite LK; apply MI|exact KN|apply MI|discriminate]. }
  assert (LV0 : minv H (leave s)) by (specialize (LV (m_known s) (mi_known _ _ MI)); destruct s; exact LV).
  destruct a as [now l|u|u|now ck|now ck| | |i| | | | | |w|w now]; cbn [mstep] in ST.
  - (* produce *)
    destruct AL as (A1 & A2 & A3). destruct (leader_write (m_sconf p) now (m_sisr p) (m_src s) l) as [r' res] eqn:W. injection ST as <-.
    destruct (produce_ok H s now l r' res MI A1 A2 A3 W) as (new & dl & L & EH & I & CD & G & LE & _). exists new. split; [|cbn; lia].
    constructor; cbn [fst set_src m_src m_tgt m_known m_last m_conn m_old].
    + eauto.
    + apply Forall_app. split; [apply MI|exact G].
    + apply foll_grow. apply MI.
    + eapply Forall_impl; [|exact (mi_links _ _ MI)]. intros k. apply link_grow.
    + apply MI.
    + apply MI.
    + apply MI.
    + pose proof (mi_last _ _ MI). lia.
    + intros n k E. destruct (mi_token _ _ MI n k E) as [X|[X|[X|(X & Y)]]]; auto. right. right. right. split; [exact X|].
      pose proof (mi_last _ _ MI). destruct (Z.eq_dec (get_leo r') (get_leo (m_src s))) as [->|NE]; [exact Y|]. right. left. lia.
  - (* upkeep of the source *)
    injection ST as <-. destruct (mi_src _ _ MI) as (dl & L & EH & I & CD).
    destruct (keep_up_inv (m_sconf p) (m_src s) u L CS I) as (dr & kept & E1 & I' & C1); [destruct u; [exact Logic.I|exact AL|exact Logic.I]|].
    exists []. rewrite app_nil_r. cbn [set_src m_src m_tgt]. rewrite keep_up_leo. split; [|lia].
    constructor; cbn [set_src m_src m_tgt m_known m_last m_conn m_old]; rewrite ?keep_up_leo; try apply MI.
    exists (dl ++ dr), kept. split; [rewrite EH, E1, app_assoc; reflexivity|]. split; [exact I'|]. eapply chain_app; eassumption.
  - (* upkeep of the target *)
    injection ST as <-. destruct (mi_tgt _ _ MI) as (n & dr & L & I & F & CD & SH).
    destruct (keep_up_inv (m_tconf p) (m_tgt s) u L CT I) as (dr' & kept & E1 & I' & C1); [destruct u; [exact Logic.I|exact AL|exact Logic.I]|].
    exists []. rewrite app_nil_r. cbn [set_tgt m_src m_tgt]. rewrite keep_up_leo. split; [|lia].
    constructor; cbn [set_tgt m_src m_tgt m_known m_last m_conn m_old]; rewrite ?keep_up_leo; try apply MI.
    exists n, (dr ++ dr'), kept. split; [exact I'|]. split; [rewrite <- app_assoc, <- E1; exact F|]. split; [eapply chain_app; eassumption|]. rewrite keep_up_short. exact SH.
  - (* the source starts again *)
    destruct (load (m_sconf p) now (disk_of (m_src s) ck)) as [r|e] eqn:LD; [|discriminate]. injection ST as <-.
    destruct (mi_src _ _ MI) as (dl & L & EH & I & CD). destruct (reopen_inv' _ _ _ _ _ _ CS I LD) as (I' & LE & LSt & _).
    exists []. rewrite app_nil_r. cbn [m_src m_tgt leave]. rewrite LE. split; [|lia].
    constructor; cbn [m_src m_tgt m_known m_last m_conn m_old leave]; rewrite ?LE; try apply MI.
    + exists dl, L. rewrite LSt. auto.
    + change (Forall (link_ok H (get_leo (m_tgt s))) (links (leave s))). rewrite links_leave. apply MI.
    + change (busy (links (leave s)) <= 1)%nat. rewrite links_leave. apply MI.
    + discriminate.
    + left. reflexivity.
    + lia.
    + discriminate.
  - (* the target starts again *)
    destruct (load (m_tconf p) now (disk_of (m_tgt s) ck)) as [r|e] eqn:LD; [|discriminate]. injection ST as <-.
    destruct (mi_tgt _ _ MI) as (n & dr & L & I & F & CD & SH). destruct (reopen_inv' _ _ _ _ _ _ CT I LD) as (I' & LE & LSt & SS).
    exists []. rewrite app_nil_r. cbn [m_src m_tgt]. rewrite LE. split; [|lia].
    constructor; cbn [m_src m_tgt m_known m_last m_conn m_old]; rewrite ?LE; try apply MI.
    + exists n, dr, L. rewrite LSt. auto.
    + constructor.
    + cbn. lia.
    + discriminate.
    + discriminate.
  - (* connect *)
    destruct (m_conn s) as [x|] eqn:C; [discriminate|]. destruct (m_alone p && _); [discriminate|]. injection ST as <-.
    assert (links s = m_old s) as LE by (unfold links; rewrite C; reflexivity).
    apply SAME; try reflexivity. apply (minv_conn H s); try reflexivity; cbn [m_known m_last m_conn].
    + exact MI.
    + unfold links. cbn [m_conn m_old app]. constructor; [split; [constructor|discriminate]|]. rewrite <- LE. apply MI.
    + unfold links. cbn [m_conn m_old app]. rewrite busy_cons. cbn [is_checked l_checked Nat.add]. rewrite <- LE. apply MI.
    + destruct (m_keeps p); [apply MI|left; reflexivity].
    + pose proof (mi_last _ _ MI). destruct (m_keeps p); lia.
    + intros n k [= <- <-]. cbn [l_offsets l_syncs]. split; [constructor; [lia|constructor]|]. right. right. left. discriminate.
  - (* drop *)
    destruct (m_conn s) eqn:C; [|discriminate]. injection ST as <-. apply SAME; try reflexivity. exact LV0.
  - (* gone *)
    destruct (nth_error (m_old s) i) as [[sy ch os]|] eqn:NE; [|discriminate]. destruct ch; [discriminate|]. injection ST as <-.
    destruct (link_split s (Former i) _ NE) as (a & b & EQ & SL). specialize (SL None). cbn [app set_link] in SL.
    apply SAME; try reflexivity. apply (minv_conn H s); try reflexivity; try apply MI.
    + rewrite SL. pose proof (mi_links _ _ MI) as X. rewrite EQ in X. apply Forall_app in X as (X1 & X2). inversion X2; subst. apply Forall_app. auto.
    + rewrite SL. pose proof (mi_one _ _ MI) as X. rewrite EQ, busy_app, busy_cons in X. rewrite busy_app. lia.
    + intros n k E. split; [apply (mi_offs _ _ MI n k E)|apply (mi_token _ _ MI n k E)].
  - (* hear *)
    destruct (m_conn s) as [[n k]|] eqn:C; [|discriminate]. destruct (must_push s n); [discriminate|]. destruct (_ =? _) in ST; [discriminate|]. injection ST as <-.
    apply SAME; try reflexivity. apply (minv_conn H s); try reflexivity; cbn [m_known m_last m_conn]; try apply MI; try lia.
    + pose proof (mi_links _ _ MI) as X. unfold links in *. rewrite C in X. exact X.
    + pose proof (mi_one _ _ MI) as X. unfold links in *. rewrite C in X. exact X.
    + intros n' k' [= <- <-]. split; [apply (mi_offs _ _ MI n k C)|]. destruct (mi_token _ _ MI n k C) as [X|[X|[X|(X & _)]]]; auto 6.
  - (* stir *)
    destruct (m_conn s) as [[n k]|] eqn:C; [|discriminate]. destruct (must_push s n); [discriminate|]. injection ST as <-.
    apply SAME; try reflexivity. apply (minv_conn H s); try reflexivity; cbn [m_known m_last m_conn]; try apply MI; try lia.
    + pose proof (mi_links _ _ MI) as X. unfold links in *. rewrite C in X. exact X.
    + pose proof (mi_one _ _ MI) as X. unfold links in *. rewrite C in X. exact X.
    + intros n' k' [= <- <-]. split; [apply (mi_offs _ _ MI n k C)|]. destruct (mi_token _ _ MI n k C) as [X|[X|[X|(X & _)]]]; auto 6.
  - (* learn *)
    destruct (m_conn s) as [[n [sy ch [|o os]]]|] eqn:C; try discriminate. destruct (must_push s n); [discriminate|].
    pose proof (mi_offs _ _ MI _ _ C) as OF. cbn [l_offsets] in OF. inversion OF as [|? ? O1 O2]; subst.
    pose proof (mi_known _ _ MI) as KN.
    unfold note_offset in ST. destruct (Z.compare_spec o (get_leo (m_src s))) as [EQ|LT|GT].
    + injection ST as <-. apply SAME; try reflexivity. apply (minv_conn H s); try reflexivity; cbn [m_known m_last m_conn]; try apply MI; try lia.
      * pose proof (mi_links _ _ MI) as X. unfold links in *. rewrite C in X. cbn [m_conn m_old app] in *. apply Forall_cons_iff in X as ((X1 & X2) & X3). constructor; [split; assumption|exact X3].
      * pose proof (mi_one _ _ MI) as X. unfold links in *. rewrite C in X. cbn [m_conn m_old app] in *. rewrite busy_cons in *. exact X.
      * destruct (m_known s <? 0) eqn:K; lia.
      * intros n' k' [= <- <-]. cbn [l_offsets l_syncs l_checked]. split; [exact O2|]. right. right. right. split; [destruct (m_known s <? 0) eqn:K; lia|]. right. right. lia.
    + injection ST as <-. apply SAME; try reflexivity. apply (minv_conn H s); try reflexivity; cbn [m_known m_last m_conn]; try apply MI; try lia.
      * pose proof (mi_links _ _ MI) as X. unfold links in *. rewrite C in X. cbn [m_conn m_old app] in *. apply Forall_cons_iff in X as ((X1 & X2) & X3). constructor; [split; assumption|exact X3].
      * pose proof (mi_one _ _ MI) as X. unfold links in *. rewrite C in X. cbn [m_conn m_old app] in *. rewrite busy_cons in *. exact X.
      * intros n' k' [= <- <-]. cbn [l_offsets l_syncs l_checked]. split; [exact O2|]. right. right. right. split; [lia|]. left. reflexivity.
    + lia.
  - (* push *)
    destruct (m_conn s) as [[n k]|] eqn:C; [|discriminate]. destruct (must_push s n) eqn:MP; [|discriminate].
    unfold must_push in MP. apply andb_true_iff in MP as (-> & K0). apply Z.leb_le in K0. pose proof (mi_known _ _ MI) as KN.
    pose proof (mi_links _ _ MI) as ML. pose proof (mi_one _ _ MI) as MO. unfold links in ML, MO. rewrite C in ML, MO.
    destruct (make_sync (m_max p) (m_src s) (m_known s)) as [|b|] eqn:MS; injection ST as <-; apply SAME; try reflexivity; [| |exact LV0].
    + apply (minv_conn H s); try reflexivity; cbn [m_known m_last m_conn]; try apply MI; try assumption.
      intros n' k' [= <- <-]. split; [apply (mi_offs _ _ MI _ _ C)|]. right. right. right. split; [exact K0|]. right. right.
      unfold make_sync in MS. destruct (_ =? _) eqn:E; [lia|]. destruct (_ <? _); [|discriminate]. destruct (read_partition_slice _ _ _ _); discriminate.
    + apply (minv_conn H s); try reflexivity; cbn [m_known m_last m_conn]; try apply MI.
      * unfold links. cbn [m_conn m_old app] in *. inversion ML as [|? ? (A1 & A2) A3]; subst. constructor; [|exact A3]. split; cbn [l_syncs l_checked]; [|exact A2].
        apply Forall_app. split; [exact A1|]. constructor; [|constructor]. exact (make_sync_ok H s b MI MS).
      * unfold links. cbn [m_conn m_old app] in *. rewrite busy_cons in *. exact MO.
      * intros n' k' [= <- <-]. cbn [l_offsets l_syncs]. split; [apply (mi_offs _ _ MI _ _ C)|]. left. destruct (l_syncs k); discriminate.
  - (* remind *)
    destruct (m_conn s) as [[n [sy [ch|] os]]|] eqn:C; try discriminate. injection ST as <-.
    pose proof (mi_links _ _ MI) as ML. pose proof (mi_one _ _ MI) as MO. unfold links in ML, MO. rewrite C in ML, MO.
    apply SAME; try reflexivity. apply (minv_conn H s); try reflexivity; cbn [set_link m_known m_last m_conn]; try apply MI.
    + unfold links. cbn [set_link m_conn m_old]. rewrite C. cbn [app] in *. inversion ML as [|? ? (A1 & A2) A3]; subst. constructor; [|exact A3]. split; [exact A1|discriminate].
    + unfold links. cbn [set_link m_conn m_old]. rewrite C. exact MO.
    + rewrite C. intros n' k' [= <- <-]. cbn [l_offsets l_syncs]. split; [apply Forall_app; split; [apply (mi_offs _ _ MI _ _ C)|constructor; [lia|constructor]]|].
      right. right. left. destruct os; discriminate.
  - (* check *)
    destruct (link_of s w) as [k|] eqn:LO; [|discriminate]. destruct (check_link (m_tgt s) k) as [k'|] eqn:CK; [|discriminate]. injection ST as <-.
    destruct (link_split s w k LO) as (a & b & EQ & SL). specialize (SL (Some k')).
    cbn [safe] in SF. pose proof SF as SF0. rewrite EQ, busy_app, busy_cons in SF.
    pose proof (mi_links _ _ MI) as ML. rewrite EQ in ML. apply Forall_app in ML as (ML1 & ML2). inversion ML2 as [|? ? (A1 & A2) A3]; subst.
    assert (link_ok H (get_leo (m_tgt s)) k' /\ exists x t, l_syncs k = x :: t /\ l_syncs k' = t
       /\ (l_checked k' <> None /\ l_offsets k' = l_offsets k \/ l_checked k' = None /\ l_offsets k' = l_offsets k ++ [get_leo (m_tgt s)])) as (KO & x & t & E1 & E2 & E3).
    { unfold check_link in CK. destruct (l_syncs k) as [|x t] eqn:SY; [discriminate|]. destruct (l_checked k); [discriminate|]. inversion A1 as [|? ? S1 S2]; subst.
      destruct (aligned (m_tgt s) (receive x)) eqn:AG; injection CK as <-.
      - split; [split; [exact S2|]|]. { cbn [l_checked]. intros l [= <-]. exact (check_ready H s x MI S1 AG). } exists x, t. cbn. split; [reflexivity|]. split; [reflexivity|]. left. split; [discriminate|reflexivity].
      - split; [split; [exact S2|discriminate]|]. exists x, t. cbn. split; [reflexivity|]. split; [reflexivity|]. right. split; reflexivity. }
    apply SAME; try (destruct w; reflexivity). apply (minv_conn H s).
    + exact MI.
    + destruct w; reflexivity.
    + destruct w; reflexivity.
    + rewrite SL. apply Forall_app. split; [exact ML1|]. cbn [app]. constructor; assumption.
    + rewrite SL, busy_app. cbn [app]. rewrite busy_cons. destruct (is_checked k'); lia.
    + destruct w; apply MI.
    + destruct w; apply MI.
    + intros n k0 E. destruct w as [|i]; cbn [set_link m_conn m_known m_last] in *.
      * cbn [link_of] in LO. destruct (m_conn s) as [[n0 k1]|] eqn:C; [|discriminate]. injection LO as ->. injection E as <- <-.
        pose proof (mi_offs _ _ MI _ _ C) as OF. destruct E3 as [(E3 & E4)|(E3 & E4)]; rewrite E4.
        -- split; [exact OF|]. auto.
        -- split; [apply Forall_app; split; [exact OF|constructor; [lia|constructor]]|]. right. right. left. destruct (l_offsets k); discriminate.
      * split; [apply (mi_offs _ _ MI _ _ E)|apply (mi_token _ _ MI _ _ E)].
  - (* store *)
    destruct (link_of s w) as [k|] eqn:LO; [|discriminate]. destruct (store_link (m_tconf p) (m_tisr p) now (m_tgt s) k) as [[r k']|] eqn:SK; [|discriminate]. injection ST as <-.
    destruct (link_split (set_tgt s r) w k) as (a & b & EQ & SL); [destruct w; exact LO|]. change (links (set_tgt s r)) with (links s) in EQ. specialize (SL k').
    unfold store_link in SK. destruct (l_checked k) as [l|] eqn:CK; [|discriminate].
    pose proof (mi_links _ _ MI) as ML. rewrite EQ in ML. apply Forall_app in ML as (ML1 & ML2). inversion ML2 as [|? ? (A1 & A2) A3]; subst.
    pose proof (mi_one _ _ MI) as MO. rewrite EQ, busy_app, busy_cons in MO. unfold is_checked in MO at 1. rewrite CK in MO.
    assert (Forall (fun k => l_checked k = None) a /\ Forall (fun k => l_checked k = None) b) as (NA & NB) by (split; apply busy_none; lia).
    destruct (leader_write (m_tconf p) now (m_tisr p) (m_tgt s) l) as [r0 res] eqn:W.
    pose proof (append_ok H (m_tconf p) now (m_tisr p) (m_tgt s) l r0 res CT (mi_good _ _ MI) (ex_intro _ _ (src_chain _ _ MI)) (mi_tgt _ _ MI) (A2 _ CK) (AL _ _ LO CK) W) as AP.
    assert (UN : forall x, link_ok H (get_leo (m_tgt s)) x -> l_checked x = None -> link_ok H (get_leo r) x) by (intros x (X1 & _) X2; split; [exact X1|rewrite X2; discriminate]).
    assert (UNs : forall x, Forall (link_ok H (get_leo (m_tgt s))) x -> Forall (fun k => l_checked k = None) x -> Forall (link_ok H (get_leo r)) x).
    { intros x X1 X2. rewrite Forall_forall in *. intros y Iy. apply UN; auto. }
    assert (KN : get_leo (m_tgt s) <= get_leo r -> m_known s = -1 \/ 0 <= m_known s <= get_leo r) by (intros; pose proof (mi_known _ _ MI); lia).
    destruct res as [e|].
    + subst r0. injection SK as <- <-. apply SAME; try (destruct w; reflexivity). apply (minv_conn H s).
      * exact MI.
      * destruct w; reflexivity.
      * destruct w; reflexivity.
      * rewrite SL. cbn [app]. apply Forall_app. auto.
      * rewrite SL. cbn [app]. rewrite busy_app. lia.
      * destruct w; apply MI.
      * destruct w; apply MI.
      * intros n k0 E. destruct w as [|i]; cbn [set_link set_tgt m_conn m_known m_last] in *; [destruct (m_conn s) as [[? ?]|]; discriminate|].
        split; [apply (mi_offs _ _ MI _ _ E)|apply (mi_token _ _ MI _ _ E)].
    + injection SK as <- <-. destruct AP as (FO & LE & TP). exists []. rewrite app_nil_r.
      split; [|destruct w; cbn [set_link set_tgt m_src m_tgt]; lia].
      assert (E1 : m_src (set_link (set_tgt s r0) w (Some (mkLink (l_syncs k) None (l_offsets k ++ [get_leo r0])))) = m_src s) by (destruct w; reflexivity).
      assert (E2 : m_tgt (set_link (set_tgt s r0) w (Some (mkLink (l_syncs k) None (l_offsets k ++ [get_leo r0])))) = r0) by (destruct w; reflexivity).
      assert (OFG : forall l0, Forall (fun o => 0 <= o <= get_leo (m_tgt s)) l0 -> Forall (fun o => 0 <= o <= get_leo r0) l0) by (intros l0; apply Forall_impl; intros; lia).
      assert (GS : minv H s -> get_leo r0 <= get_leo (m_src s)).
      { intros _. destruct (foll_chain _ _ _ _ FO) as (n & C). pose proof (src_chain _ _ MI) as CL. destruct (chain_firstn n _ _ _ CL) as (m & X & Y). pose proof (chain_fun _ _ _ _ C X). lia. }
      constructor; rewrite ?E1, ?E2.
      * apply MI.
      * apply MI.
      * exact FO.
      * rewrite SL. cbn [app]. apply Forall_app. split; [apply UNs; assumption|]. constructor; [split; [exact A1|discriminate]|apply UNs; assumption].
      * rewrite SL. cbn [app]. rewrite busy_app, busy_cons. cbn [is_checked l_checked]. lia.
      * intros n k0 E. destruct w as [|i]; cbn [set_link set_tgt m_conn] in *.
        -- cbn [link_of] in LO. destruct (m_conn s) as [[n0 k1]|] eqn:C; [|discriminate]. injection LO as ->. injection E as <- <-. cbn [l_offsets]. apply Forall_app. split; [apply OFG; apply (mi_offs _ _ MI _ _ C)|].
           constructor; [lia|constructor].
        -- apply OFG. apply (mi_offs _ _ MI _ _ E).
      * destruct w; cbn [set_link set_tgt m_known]; apply KN; lia.
      * destruct w; apply MI.
      * intros n k0 E. destruct w as [|i]; cbn [set_link set_tgt m_conn m_known m_last] in *.
        -- destruct (m_conn s) as [[n0 k1]|] eqn:C; [|discriminate]. injection E as <- <-. cbn [l_offsets]. right. right. left. destruct (l_offsets k); discriminate.
        -- destruct (mi_token _ _ MI _ _ E) as [X|[X|[X|(X & Y)]]]; auto. right. right. right. split; [exact X|].
           destruct Y as [Y|[Y|Y]]; auto. right. right. specialize (GS MI). lia.
Qed.

Lemma start_minv : minv [] (start p).
Proof.
  pose proof PO as (CS & CT & MX). constructor; unfold start, mirror0; cbn [m_src m_tgt m_known m_last m_conn].
  - exists [], []. split; [reflexivity|]. split; [apply fresh_inv; assumption|reflexivity].
  - constructor.
  - exists 0%nat, [], []. split; [apply fresh_inv; assumption|]. split; [constructor|]. split; reflexivity.
  - constructor.
  - cbn. lia.
  - discriminate.
  - left. reflexivity.
  - cbn. lia.
  - discriminate.
Qed.
Lemma safe_one s a : one_at_a_time s a -> safe s a.
Proof. destruct a; cbn; auto. apply busy_none. Qed.
Lemma runs_minv (P : mirror -> act -> Prop) s s' H : (forall s a, P s a -> one_at_a_time s a) -> minv H s -> runs p P s s' -> exists new, minv (H ++ new) s'.
Proof.
  intros HP MI R. induction R as [s|s s1 s2 a R IH PA AL ST]; [exists []; rewrite app_nil_r; exact MI|].
  destruct (IH MI) as (new & M1). destruct (mstep_ok _ _ _ _ M1 (safe_one _ _ (HP _ _ PA)) AL ST) as (new2 & M2 & _). exists (new ++ new2). rewrite app_assoc. exact M2.
Qed.
Lemma reached_minv (P : mirror -> act -> Prop) s : (forall s a, P s a -> one_at_a_time s a) -> runs p P (start p) s -> exists H, minv H s.
Proof. intros HP R. destruct (runs_minv P _ _ [] HP start_minv R) as (new & M). eauto. Qed.

(** One task at the target: it never overlaps with itself. *)
Lemma alone_links s a s' : m_alone p = true -> (length (links s) <= 1)%nat -> mstep p s a = Some s' -> (length (links s') <= 1)%nat.
Proof.
  intros AL LE ST. pose proof (links_leave s) as LL.
  destruct a as [now l|u|u|now ck|now ck| | |i| | | | | |w|w now]; cbn [mstep] in ST.
  - injection ST as <-. exact LE.
  - injection ST as <-. exact LE.
  - injection ST as <-. exact LE.
  - destruct (load _ _ _); [|discriminate]. injection ST as <-. change (length (links (leave s)) <= 1)%nat. rewrite LL. exact LE.
  - destruct (load _ _ _); [|discriminate]. injection ST as <-. cbn. lia.
  - destruct (m_conn s) eqn:C; [discriminate|]. rewrite AL in ST. cbn [andb] in ST. destruct (m_old s); [|discriminate]. injection ST as <-. cbn. lia.
  - destruct (m_conn s) eqn:C; [|discriminate]. injection ST as <-. rewrite LL. exact LE.
  - destruct (nth_error (m_old s) i) as [[sy [ch|] os]|] eqn:NE; try discriminate. injection ST as <-.
    destruct (link_split s (Former i) _ NE) as (a & b & EQ & SL). specialize (SL None). cbn [set_link] in SL. rewrite SL. rewrite EQ, app_length in LE. cbn [length app] in *. rewrite app_length. lia.
  - destruct (m_conn s) as [[n k]|] eqn:C; [|discriminate]. destruct (must_push s n); [discriminate|]. destruct (_ =? _) in ST; [discriminate|]. injection ST as <-. unfold links in *. rewrite C in LE. exact LE.
  - destruct (m_conn s) as [[n k]|] eqn:C; [|discriminate]. destruct (must_push s n); [discriminate|]. injection ST as <-. unfold links in *. rewrite C in LE. exact LE.
  - destruct (m_conn s) as [[n [sy ch [|o os]]]|] eqn:C; try discriminate. destruct (must_push s n); [discriminate|]. destruct (note_offset _ _ _) as [kn [n'|]]; injection ST as <-; [unfold links in *; rewrite C in LE; exact LE|].
    rewrite links_leave. unfold links in *. cbn [m_conn m_old]. rewrite C in LE. exact LE.
  - destruct (m_conn s) as [[n k]|] eqn:C; [|discriminate]. destruct (must_push s n); [|discriminate]. destruct (make_sync _ _ _); injection ST as <-; [| |rewrite LL; exact LE]; unfold links in *; rewrite C in LE; exact LE.
  - destruct (m_conn s) as [[n [sy [ch|] os]]|] eqn:C; try discriminate. injection ST as <-. unfold links in *. cbn [set_link m_conn m_old]. rewrite C in *. exact LE.
  - destruct (link_of s w) as [k|] eqn:LO; [|discriminate]. destruct (check_link _ _); [|discriminate]. injection ST as <-.
    destruct (link_split s w k LO) as (a & b & EQ & SL). rewrite SL. rewrite EQ, app_length in LE. cbn [length app] in *. rewrite app_length. cbn [length]. lia.
  - destruct (link_of s w) as [k|] eqn:LO; [|discriminate]. destruct (store_link _ _ _ _ _) as [[r k']|]; [|discriminate]. injection ST as <-.
    destruct (link_split (set_tgt s r) w k) as (a & b & EQ & SL); [destruct w; exact LO|]. rewrite SL. change (links (set_tgt s r)) with (links s) in EQ. rewrite EQ, app_length in LE.
    cbn [length app] in *. rewrite !app_length. destruct k'; cbn [length]; lia.
Qed.
Lemma alone_safe s w s' : (length (links s) <= 1)%nat -> mstep p s (Check w) = Some s' -> Forall (fun k => l_checked k = None) (links s).
Proof.
  intros LE ST. cbn [mstep] in ST. destruct (link_of s w) as [k|] eqn:LO; [|discriminate]. destruct (check_link (m_tgt s) k) eqn:CK; [|discriminate].
  destruct (link_split s w k LO) as (a & b & EQ & _). rewrite EQ, app_length in LE. cbn [length] in LE. rewrite EQ.
  destruct a; [|cbn in LE; lia]. destruct b; [|cbn in LE; lia]. constructor; [|constructor]. unfold check_link in CK. destruct (l_syncs k); [discriminate|]. destruct (l_checked k); [discriminate|reflexivity].
Qed.
Lemma alone_runs s : m_alone p = true -> runs p any_act (start p) s -> runs p one_at_a_time (start p) s /\ (length (links s) <= 1)%nat.
Proof.
  intros AL R. remember (start p) as s0 eqn:E0. induction R as [s|s s1 s2 a R IH PA A ST]; [subst; split; [apply runs_none|cbn; lia]|].
  destruct (IH E0) as (R1 & L1). split; [|eapply alone_links; eassumption]. eapply runs_more; [exact R1| |exact A|exact ST].
  destruct a; cbn; auto. eapply alone_safe; eassumption.
Qed.
Lemma src_holds H s : minv H s -> holds (m_src s) H.
Proof.
  intros MI. split; [eapply src_chain; exact MI|]. destruct (mi_src _ _ MI) as (dl & L & E & I & CD).
  exists dl, L. split; [assumption|]. split; [|assumption]. destruct (inv_stores _ _ _ I) as (S & _). exact S.
Qed.
End Mirror.
