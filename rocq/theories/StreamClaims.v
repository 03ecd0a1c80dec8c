(** What streams deliver. *)
From Verif Require Import StorageSpec RecordSpec RecordProofs StorageProofs ReplicaProofs StorageClaims ClusterProofs ReplicationClaims ListFacts.
From Verif Require Import StreamModel StreamSpec StreamProofs.

(** * Records of batches *)
Lemma number_records_range l : forall o x, In x (number_records o l) -> o <= fst x < o + zlen l.
Proof.
  induction l as [|r l IH]; intros o x IN; [contradiction|]. cbn [number_records] in IN. unfold zlen in *. cbn [length].
  destruct IN as [<-|IN]; [cbn; lia|]. specialize (IH _ _ IN). lia.
Qed.
Lemma records_of_range b x : honest b -> In x (records_of b) -> b_base b <= fst x < batch_end b.
Proof.
  intros (m & E & L) IN. unfold records_of in IN. rewrite E in IN. apply number_records_range in IN. unfold batch_end. lia.
Qed.
Lemma filter_false {A} (f : A -> bool) l : (forall x, In x l -> f x = false) -> filter f l = [].
Proof. induction l as [|a l IH]; intros F; [reflexivity|]. cbn. rewrite (F a (or_introl eq_refl)). apply IH. intros x IN. apply F. right; assumption. Qed.
Lemma filter_true {A} (f : A -> bool) l : (forall x, In x l -> f x = true) -> filter f l = l.
Proof. induction l as [|a l IH]; intros F; [reflexivity|]. cbn. rewrite (F a (or_introl eq_refl)). f_equal. apply IH. intros x IN. apply F. right; assumption. Qed.
Lemma filter_ext_in' {A} (f g : A -> bool) l : (forall x, In x l -> f x = g x) -> filter f l = filter g l.
Proof. induction l as [|a l IH]; intros F; [reflexivity|]. cbn. rewrite (F a (or_introl eq_refl)), (IH (fun x IN => F x (or_intror IN))). reflexivity. Qed.

Lemma filter_filter' {A} (f g : A -> bool) l : filter f (filter g l) = filter (fun x => g x && f x) l.
Proof. induction l as [|a l IH]; [reflexivity|]. cbn. destruct (g a); cbn; [destruct (f a)|]; rewrite IH; reflexivity. Qed.

(** Where the batches that end at or before [q] stop. *)
Lemma cut_at H : forall a e q, chain a H e -> exists A B m, H = A ++ B /\ chain a A m /\ chain m B e /\ (A = [] \/ m <= q) /\ (forall b, In b B -> q < batch_end b).
Proof.
  induction H as [|b H IH]; intros a e q CH; [exists [], [], a; cbn in *; repeat split; auto; intros b []|]. pose proof CH as CH0. cbn [chain] in CH. destruct CH as (E & P & CH).
  destruct (Z.le_gt_cases (batch_end b) q) as [L|G].
  - destruct (IH _ _ q CH) as (A & B & m & -> & CA & CB & M & F). exists (b :: A), B, m. split; [reflexivity|]. split; [cbn [chain]; auto|]. split; [assumption|].
    split; [|assumption]. right. destruct M as [->|M]; [|assumption]. cbn in CA. unfold batch_end in L. lia.
  - exists [], (b :: H), a. split; [reflexivity|]. split; [reflexivity|]. split; [assumption|]. split; [left; reflexivity|].
    intros b' [<-|IN]; [lia|]. apply (chain_in _ _ _ _ CH) in IN. unfold batch_end in *. lia.
Qed.
Lemma between_batches H e s q : chain 0 H e -> Forall honest H -> 0 <= s <= q ->
  exists q', s <= q' <= q /\ filter (fun x => s <=? fst x) (flat_map records_of (batches_between s q H)) = between s q' H
    /\ (forall b, In b H -> batch_end b <= q -> batch_end b <= q').
Proof.
  intros CH HO SQ. destruct (cut_at H 0 e q CH) as (A & B & m & -> & CA & CB & M & F). apply Forall_app in HO as (HA & HB).
  assert (m <= q) as MQ by (destruct M as [->|M]; [cbn in CA; lia|assumption]).
  exists (Z.max s m). split; [lia|]. split.
  - rewrite bb_app. assert (batches_between s q B = []) as ->.
    { apply filter_false. intros b IN. specialize (F b IN). lia. }
    rewrite app_nil_r. unfold between. rewrite flat_map_app, filter_app.
    rewrite (filter_false _ (flat_map records_of B)).
    2:{ intros x IN. apply in_flat_map in IN as (b & IN & X). rewrite Forall_forall in HB. apply records_of_range in X; [|auto]. apply (chain_in _ _ _ _ CB) in IN. lia. }
    rewrite app_nil_r. clear CB F CH HB B e.
    revert CA. generalize 0 at 1. intros a CA. clear M.
    assert (forall b, In b A -> batch_end b <= m) as LE by (intros b IN; apply (chain_in _ _ _ _ CA) in IN; lia).
    clear CA. induction A as [|b A IH]; [reflexivity|]. inversion HA as [|b' A' HB HA']; subst. unfold batches_between. cbn [filter].
    pose proof (LE b (or_introl eq_refl)) as L. specialize (IH HA' (fun b IN => LE b (or_intror IN))).
    cbn [flat_map]. rewrite filter_app, <- IH. replace (batch_end b <=? q) with true by lia. rewrite andb_true_r.
    destruct (s <? batch_end b) eqn:SB.
    + cbn [flat_map]. rewrite filter_app. f_equal. apply filter_ext_in'. intros x IN. apply records_of_range in IN; [|assumption]. lia.
    + rewrite (filter_false _ (records_of b)); [reflexivity|]. intros x IN. apply records_of_range in IN; [|assumption]. lia.
  - intros b IN Q. apply in_app_or in IN as [IN|IN]; [apply (chain_in _ _ _ _ CA) in IN; lia|]. specialize (F b IN). lia.
Qed.

(** * Streams without SmartModules *)
Definition entry (i : item) : option (Z * rec) := match i with Rec c => Some (cr_offset c, cr_rec c) | ErrItem => None end.
Definition out_raw (s : Z) (o : list item) (B : list (batch bytes)) : Prop :=
  map entry o = map Some (filter (fun x => s <=? fst x) (flat_map records_of B)).

Lemma shown_entries s part ts l : forall base i,
  map entry (map Rec (filter (fun c => s <=? cr_offset c) (consumer_records_from base part ts i l)))
  = map Some (filter (fun x => s <=? fst x) (number_records (base + i) l)).
Proof.
  induction l as [|r l IH]; intros base i; [reflexivity|]. cbn [consumer_records_from number_records filter cr_offset fst].
  replace (base + i + 1) with (base + (i + 1)) by lia. destruct (s <=? base + i); cbn [map]; rewrite IH; reflexivity.
Qed.
Lemma received_memory b m : to_memory b = Ok m -> exists m', to_memory (received raw_codec b) = Ok m' /\ b_recs m' = b_recs m /\ b_base m' = b_base b.
Proof.
  unfold to_memory. cbn [received received_with b_recs]. destruct (memory_records (b_recs b)) as [rs|]; [|discriminate]. intros E. inversion E; subst. eexists. split; [reflexivity|]. auto.
Qed.
Lemma items_sent s B : Forall honest B ->
  map entry (flat_map (fun b => match to_memory b with Ok m => shown s m | Err _ => [ErrItem] end) (map (received raw_codec) B))
  = map Some (filter (fun x => s <=? fst x) (flat_map records_of B)).
Proof.
  induction B as [|b B IH]; intros HO; [reflexivity|]. inversion HO as [|? ? (m & E & _) HO']; subst. cbn [map flat_map].
  rewrite filter_app, !map_app, IH by assumption. f_equal. destruct (received_memory b m E) as (m' & -> & R & Bm).
  unfold shown, into_consumer_records, records_of. rewrite E, shown_entries, R, Bm. rewrite Z.add_0_r. reflexivity.
Qed.
Lemma last_offset_end p' q B : chain p' B q -> B <> [] -> rset_last_offset (map (received raw_codec) B) = Some q.
Proof.
  intros CH NE. destruct (exists_last NE) as (A & b & ->). apply chain_split in CH as (x & _ & CB). cbn [chain] in CB. destruct CB as (E & _ & EQ).
  unfold rset_last_offset. rewrite map_app, rev_app_distr. cbn [map rev app]. unfold computed_last_offset, records_len in *. cbn [received received_with b_base b_hdr received_hdr h_last_delta with_crc]. f_equal. lia.
Qed.
Lemma receive_encs B n : Forall raw_batch_ok B -> zlen (encs B) <= n -> n < 2 ^ 31 -> receive (encs B) = map (received raw_codec) B.
Proof.
  intros OK SZ N. rewrite <- (receive_full B n OK ltac:(lia) SZ). rewrite ztake_all by assumption. reflexivity.
Qed.
Lemma encs_nonempty b B : encs (b :: B) <> [].
Proof.
  intros E. apply (f_equal zlen) in E. change (encs (b :: B)) with (renc b ++ encs B) in E. rewrite zlen_app in E.
  pose proof (renc_pos b). pose proof (zlen_nonneg (encs B)). change (zlen (@nil Z)) with 0 in E. lia.
Qed.

Section Plain.
  Context (c : config) (p : params) (s : Z) (CO : config_ok c) (S0 : 0 <= s) (SM : p_sm p = None).
  Definition any_log (r : replica) (H : list (batch bytes)) : Prop := one_response c p s r H.
  Lemma any_back r H a r' new : logged c r H -> op_ok c r a -> live r a -> exec c r a = Done r' -> stored_by a r r' new ->
    any_log r' (H ++ new) -> any_log r H.
  Proof.
    intros LG OK LV EX ST [A|A]; [left; exact A|right]. destruct (logged_step c r H a r' new CO LG OK ltac:(destruct a; cbn in *; auto) EX ST) as (LG' & LE & _).
    pose proof (logged_chain _ _ _ LG) as CH. pose proof (logged_chain _ _ _ LG') as CH'. pose proof (chain_le _ _ _ CH) as L0.
    destruct (Z.le_gt_cases s (get_leo r)) as [SL|SL].
    - pose proof (encs_part s (get_leo r) (get_leo r') (H ++ new) CH' ltac:(lia)) as P. rewrite (bb_app s (get_leo r)) in P. destruct ST as (CN & _).
      rewrite (bb_none_high _ _ _ s (get_leo r) CN) in P by lia. rewrite app_nil_r in P. unfold encs in P. lia.
    - rewrite (bb_none_low _ _ _ s (get_leo r) CH) by lia. pose proof (zlen_nonneg (flat_map renc (batches_between s (get_leo r') (H ++ new)))). change (zlen (flat_map renc [])) with 0. lia.
  Qed.
  Lemma sends_raw r H pos : logged c r H -> any_log r H -> get_log_start r <= pos <= log_limit (p_iso p) r -> s <= pos ->
    (send_back p r pos = Some (pos, false, None) /\ caught_up H pos (log_limit (p_iso p) r))
    \/ (send_back p r pos = Some (log_limit (p_iso p) r, false, None)
        /\ forall o B, out_raw s o B -> B = batches_between s pos H -> out_raw s o (B ++ batches_between pos (log_limit (p_iso p) r) H))
    \/ (exists x q, send_back p r pos = Some (log_limit (p_iso p) r, true, Some x) /\ pos < q <= log_limit (p_iso p) r /\ next_offset_for_fetch x = Some q
        /\ forall o B, out_raw s o B -> B = batches_between s pos H -> out_raw s (o ++ items s x) (B ++ batches_between pos q H)).
  Proof.
    intros LG DM PO SP. assert (c_seg_max c <= p_max p \/ zlen (encs (batches_between pos (get_leo r) H)) <= p_max p) as DM'.
    { destruct DM as [DM|DM]; [left; assumption|right]. pose proof (logged_chain _ _ _ LG) as CH.
      assert (log_limit (p_iso p) r <= get_leo r) by (destruct LG as (old & L & _ & _ & _ & HW & _); destruct (p_iso p); cbn; lia).
      rewrite <- (bb_join _ _ _ s pos _ CH) in DM by lia. unfold encs in DM. rewrite flat_map_app, zlen_app in DM. unfold encs. match type of DM with ?x + _ <= _ => assert (0 <= x) by apply zlen_nonneg end. lia. }
    assert (max_fetch p = p_max p) as MF by (unfold max_fetch; rewrite SM; reflexivity).
    destruct (read_slice c r H (p_iso p) (max_fetch p) pos CO LG PO ltac:(rewrite MF; exact DM')) as (q & sl & p' & RD & EN & BY & Q & NE & EM & SZ & OK & _).
    unfold send_back. rewrite RD, BY, EN, SM. destruct (batches_between pos q H) as [|b B] eqn:EB.
    - left. split; [reflexivity|]. exact (EM eq_refl).
    - right; right. destruct (NE ltac:(discriminate)) as (CH & PQ). pose proof (encs_nonempty b B) as NN. destruct (encs (b :: B)) as [|z zs] eqn:EE; [contradiction|]. rewrite <- EE in *.
      assert (receive (encs (b :: B)) = map (received raw_codec) (b :: B)) as RC by (eapply receive_encs; [exact OK|exact SZ|destruct CO; lia]).
      assert (Forall honest (b :: B)) as HO.
      { destruct LG as (old & L & _ & _ & _ & _ & HO). rewrite <- EB. apply Forall_forall. intros y IN. unfold batches_between in IN. apply filter_In in IN as (IN & _). rewrite Forall_forall in HO. auto. }
      exists (Raw (encs (b :: B))), q. split; [reflexivity|]. split; [lia|]. cbn [next_offset_for_fetch items]. rewrite RC.
      split; [apply (last_offset_end p'); [exact CH|discriminate]|].
      intros o B0 OO _. unfold out_raw in *. rewrite flat_map_app, filter_app, !map_app, OO. f_equal. rewrite EB. apply items_sent; assumption.
  Qed.
  Lemma plain_run r0 H0 H y : hist c r0 H0 -> s <= log_limit (p_iso p) r0 -> run c p s r0 H0 H y -> one_response c p s (y_store y) H ->
    logged c (y_store y) H /\ J c p s (out_raw s) y H.
  Proof.
    intros HI SL RN DM. pose proof (hist_logged _ _ _ CO HI) as LG. split; [eapply run_logged; eassumption|].
    eapply (J_run c p s CO S0 (out_raw s) eq_refl any_log); [apply any_back|apply sends_raw|exact LG|exact SL|exact RN|exact DM].
  Qed.
  Lemma plain_safe r0 H0 H y : hist c r0 H0 -> s <= log_limit (p_iso p) r0 -> run c p s r0 H0 H y -> one_response c p s (y_store y) H ->
    exists q e, seen y = map Some (between s q H) ++ e /\ s <= q <= log_limit (p_iso p) (y_store y)
      /\ (e = [] \/ e = [None] /\ y_pc y = Ended /\ q < get_log_start (y_store y)).
  Proof.
    intros HI SL RN DM. destruct (plain_run _ _ _ _ HI SL RN DM) as (LG & IJ). pose proof (logged_chain _ _ _ LG) as CH.
    destruct (J_given _ _ _ _ _ _ IJ) as (pos & o & e & EO & OO & PO & D).
    destruct LG as (old & L & EH & I & C0 & HW & HO). destruct (between_batches H _ s pos CH HO ltac:(lia)) as (q' & Q' & EB & _).
    exists q', (map entry e). split; [unfold seen; change (map entry (y_out y) = map Some (between s q' H) ++ map entry e); rewrite EO, map_app, OO, EB; reflexivity|]. split; [lia|].
    destruct D as [->|(-> & D1 & D2)]; [left; reflexivity|right]. split; [reflexivity|]. split; [assumption|lia].
  Qed.
  Lemma plain_complete r0 H0 H y : hist c r0 H0 -> s <= log_limit (p_iso p) r0 -> run c p s r0 H0 H y -> one_response c p s (y_store y) H -> quiet p y ->
    exists q, seen y = map Some (between s q H) /\ s <= q <= log_limit (p_iso p) (y_store y)
      /\ (forall b, In b H -> batch_end b <= log_limit (p_iso p) (y_store y) -> batch_end b <= q).
  Proof.
    intros HI SL RN DM QU. destruct (plain_run _ _ _ _ HI SL RN DM) as (LG & IJ). pose proof (logged_chain _ _ _ LG) as CH.
    destruct (J_quiet _ _ _ _ _ _ IJ QU) as (pos & OO & PO & CU).
    destruct LG as (old & L & EH & I & C0 & HW & HO). destruct (between_batches H _ s pos CH HO ltac:(lia)) as (q' & Q' & EB & AL).
    exists q'. split; [unfold seen; change (map entry (y_out y) = map Some (between s q' H)); rewrite OO, EB; reflexivity|]. split; [lia|].
    intros b IN BE. apply AL; [assumption|]. destruct (Z.le_gt_cases (batch_end b) pos); [assumption|]. specialize (CU b IN ltac:(lia)). lia.
  Qed.
  Lemma plain_ends r0 H0 H y : hist c r0 H0 -> s <= log_limit (p_iso p) r0 -> run c p s r0 H0 H y -> one_response c p s (y_store y) H ->
    Acc (fun y' y => moves p s y y') y /\ ((forall y', ~ moves p s y y') -> quiet p y \/ y_pc y = Ended).
  Proof.
    intros HI SL RN DM. destruct (plain_run _ _ _ _ HI SL RN DM) as (LG & IJ). split.
    - eapply (J_ends c p s S0 (out_raw s) any_log); [apply any_back|apply sends_raw|exact IJ|exact DM].
    - eapply J_stuck; exact IJ.
  Qed.
End Plain.

(** * Streams with a SmartModule *)
Lemma passed_received sm b : passed sm (received raw_codec b) = passed sm b.
Proof.
  unfold passed, to_memory. cbn [received received_with b_recs b_base]. destruct (memory_records (b_recs b)); reflexivity.
Qed.
Lemma add_none r : add_base_offset 0 r = r.
Proof. destruct r. unfold add_base_offset, set_off. cbn. rewrite Z.add_0_r. reflexivity. Qed.
Lemma content_add x l : map content_of (map (add_base_offset x) l) = map content_of l.
Proof. rewrite map_map. apply map_ext. reflexivity. Qed.
Lemma honest_memory b : honest b -> exists m, to_memory (received raw_codec b) = Ok m /\ forall sm, sm (b_base b) (b_recs m) = passed sm b.
Proof.
  intros (m & E & _). destruct (received_memory b m E) as (m' & E' & R & _). exists m'. split; [assumption|]. intros sm. unfold passed. rewrite E, R. reflexivity.
Qed.
Lemma chain_delta (b : batch bytes) : 0 < records_len b -> h_last_delta (b_hdr b) + 1 = records_len b.
Proof. unfold records_len. destruct (_ <? 0); lia. Qed.

Lemma process_more sm mx base sel : forall x q delta recs n, chain x sel q -> Forall honest sel -> base <> -1 -> base + delta + 1 = x ->
  exists s1 s2 x' delta' recs' n', sel = s1 ++ s2 /\ chain x s1 x' /\ chain x' s2 q
    /\ process_from sm mx (map (received raw_codec) sel) (mkOut base delta recs n) = Ok (mkOut base delta' (recs ++ recs') n')
    /\ base + delta' + 1 = x' /\ map content_of recs' = map content_of (flat_map (passed sm) s1).
Proof.
  induction sel as [|b sel IH]; intros x q delta recs n CH HO NB ED.
  { exists [], [], x, delta, [], n. cbn. rewrite app_nil_r. cbn in CH. repeat split; auto. }
  cbn [chain] in CH. destruct CH as (EB & P & CH). inversion HO as [|b0' l0' HB HO']; subst b0' l0'.
  destruct (honest_memory b HB) as (m & EM & EP). cbn [map process_from]. rewrite EM. cbn [bind].
  replace (b_base (received raw_codec b)) with (b_base b) by reflexivity. change (h_last_delta (b_hdr (received raw_codec b))) with (h_last_delta (b_hdr b)). rewrite (chain_delta b P), EP.
  cbn [q_base q_delta q_recs q_bytes]. replace (base =? -1) with false by lia.
  destruct (passed sm b) as [|r rs] eqn:EPS.
  - destruct (IH (x + records_len b) q (delta + records_len b) recs n CH HO' NB ltac:(lia)) as (s1 & s2 & x' & d' & rc' & n' & -> & C1 & C2 & PR & D & CT).
    exists (b :: s1), s2, x', d', rc', n'. split; [reflexivity|]. split; [cbn [chain]; auto|]. split; [assumption|]. split; [exact PR|]. split; [assumption|].
    cbn [flat_map]. rewrite EPS. exact CT.
  - rewrite <- EPS. destruct (_ <? _).
    + exists [], (b :: sel), x, delta, [], n. rewrite app_nil_r. split; [reflexivity|]. split; [reflexivity|]. split; [cbn [chain]; auto|]. repeat split; auto.
    + destruct (IH (x + records_len b) q (delta + records_len b) (recs ++ map (add_base_offset (base - b_base b)) (passed sm b)) (n + c_size memory_codec (map (add_base_offset (base - b_base b)) (passed sm b))) CH HO' NB ltac:(lia)) as (s1 & s2 & x' & d' & rc' & n' & -> & C1 & C2 & PR & D & CT).
      exists (b :: s1), s2, x', d', (map (add_base_offset (base - b_base b)) (passed sm b) ++ rc'), n'. split; [reflexivity|]. split; [cbn [chain]; auto|]. split; [assumption|].
      split; [rewrite app_assoc; exact PR|]. split; [assumption|]. cbn [flat_map]. rewrite !map_app, content_add, CT. reflexivity.
Qed.

Lemma process_first sm mx sel : forall x q, 0 <= x -> chain x sel q -> Forall honest sel -> (forall b, In b sel -> c_size memory_codec (passed sm b) <= mx) ->
  (process_from sm mx (map (received raw_codec) sel) out0 = Ok out0 /\ flat_map (passed sm) sel = [])
  \/ exists s0 s1 s2 x0 x' delta recs n, sel = s0 ++ s1 ++ s2 /\ chain x s0 x0 /\ chain x0 s1 x' /\ chain x' s2 q /\ s1 <> [] /\ flat_map (passed sm) s0 = []
      /\ process_from sm mx (map (received raw_codec) sel) out0 = Ok (mkOut x0 delta recs n) /\ recs <> []
      /\ x0 + delta + 1 = x' /\ map content_of recs = map content_of (flat_map (passed sm) s1).
Proof.
  induction sel as [|b sel IH]; intros x q X0 CH HO FT; [left; split; reflexivity|].
  cbn [chain] in CH. destruct CH as (EB & P & CH). inversion HO as [|b0' l0' HB HO']; subst b0' l0'.
  destruct (honest_memory b HB) as (m & EM & EP). cbn [map process_from]. rewrite EM. cbn [bind].
  replace (b_base (received raw_codec b)) with (b_base b) by reflexivity. change (h_last_delta (b_hdr (received raw_codec b))) with (h_last_delta (b_hdr b)). rewrite (chain_delta b P), EP.
  cbn [out0 q_base q_delta q_recs q_bytes]. change (-1 =? -1) with true. cbv iota.
  destruct (passed sm b) as [|r rs] eqn:EPS.
  - destruct (IH (x + records_len b) q ltac:(lia) CH HO' (fun b IN => FT b (or_intror IN))) as [(PR & FM)|(s0 & s1 & s2 & x0 & x' & d & rc & n & -> & C0 & C1 & C2 & N1 & F0 & PR & NR & D & CT)].
    + left. split; [exact PR|]. cbn [flat_map]. rewrite EPS. exact FM.
    + right. exists (b :: s0), s1, s2, x0, x', d, rc, n. split; [reflexivity|]. split; [cbn [chain]; auto|]. split; [assumption|]. split; [assumption|]. split; [assumption|].
      split; [cbn [flat_map]; rewrite EPS; exact F0|]. split; [exact PR|]. auto.
  - rewrite <- EPS. replace (b_base b - b_base b) with 0 by lia. rewrite (map_ext _ _ add_none), map_id. pose proof (FT b (or_introl eq_refl)) as FB.
    replace (mx <? 0 + c_size memory_codec (passed sm b)) with false by lia.
    destruct (process_more sm mx (b_base b) sel (x + records_len b) q (-1 + records_len b) (passed sm b) (0 + c_size memory_codec (passed sm b)) CH HO' ltac:(lia) ltac:(lia))
      as (s1 & s2 & x' & d' & rc' & n' & -> & C1 & C2 & PR & D & CT).
    right. exists [], (b :: s1), s2, x, x', d', (passed sm b ++ rc'), n'. split; [reflexivity|]. split; [reflexivity|]. split; [cbn [chain]; auto|]. split; [assumption|].
    split; [discriminate|]. split; [reflexivity|]. split; [rewrite <- EB; exact PR|]. split; [rewrite EPS; discriminate|]. split; [lia|]. cbn [flat_map]. rewrite !map_app, CT. reflexivity.
Qed.

Lemma shown_all s part ts l : forall base i, s <= base + i ->
  map snapshot (map Rec (filter (fun c => s <=? cr_offset c) (consumer_records_from base part ts i l))) = map Some (number_contents (base + i) (map content_of l)).
Proof.
  induction l as [|r l IH]; intros base i SB; [reflexivity|]. cbn [consumer_records_from filter cr_offset map number_contents].
  replace (s <=? base + i) with true by lia. cbn [map snapshot cr_offset cr_rec]. rewrite IH by lia. replace (base + (i + 1)) with (base + i + 1) by lia. reflexivity.
Qed.

Lemma active_base_grows c r H a r' : config_ok c -> logged c r H -> op_ok c r a -> live r a -> exec c r a = Done r' -> m_base (r_active r) <= m_base (r_active r').
Proof.
  intros CO (old & L & -> & I & C0 & HW & HO) OK LV EX. destruct a as [now l upd|o| |now|now k|now b n k]; cbn [exec] in EX; cbn [live] in LV; try contradiction.
  - destruct OK as (OKl & R). injection EX as EX. subst r'. destruct I as (s & ls & act & EI & IA). unfold write_recordset. destruct (check_limits c l) eqn:CL; [cbn; lia|].
    destruct (write_batches c now r l) as [r1 res] eqn:WB. destruct (write_batches_at _ _ _ _ _ _ _ _ _ CO IA OKl CL R WB) as (n & ls' & act' & _ & MB & _).
    destruct res; [exact MB|]. destruct upd; exact MB.
  - inversion EX; subst. cbn. lia.
  - inversion EX; subst. unfold enforce_size. match goal with |- context [if ?b then _ else _] => destruct b end; cbn; lia.
  - inversion EX; subst. unfold enforce_ttl. match goal with |- context [match ?b with [] => _ | _ :: _ => _ end] => destruct b end; cbn; lia.
Qed.

Section Smart.
  Context (c : config) (p : params) (s : Z) (sm : smart) (CO : config_ok c) (S0 : 0 <= s) (SM : p_sm p = Some sm).
  Notation lim r := (log_limit (p_iso p) r).

  Lemma smart_back r H a r' new : logged c r H -> op_ok c r a -> live r a -> exec c r a = Done r' -> stored_by a r r' new ->
    smart_log sm (p_max p) s r' (H ++ new) -> smart_log sm (p_max p) s r H.
  Proof.
    intros LG OK LV EX ST (A & F & D). pose proof (active_base_grows _ _ _ _ _ CO LG OK LV EX).
    split; [intros b IN; apply A; apply in_or_app; auto|]. split; [intros b IN; apply F; apply in_or_app; auto|].
    destruct D as [D|D]; [left; lia|right; intros b IN; apply D; apply in_or_app; auto].
  Qed.

  (** the response *)
  Lemma smart_send r H pos : logged c r H -> smart_log sm (p_max p) s r H -> get_log_start r <= pos <= lim r -> s <= pos ->
    (send_back p r pos = Some (pos, false, None) /\ caught_up H pos (lim r))
    \/ (send_back p r pos = Some (lim r, false, None) /\ flat_map (passed sm) (batches_between pos (lim r) H) = [])
    \/ (exists x q s0 s1 x0, send_back p r pos = Some (lim r, true, Some x) /\ pos < q <= lim r /\ next_offset_for_fetch x = Some q
        /\ batches_between pos q H = s0 ++ s1 /\ flat_map (passed sm) s0 = [] /\ chain x0 s1 q /\ s1 <> []
        /\ map snapshot (items s x) = map Some (number_contents x0 (map content_of (flat_map (passed sm) s1)))).
  Proof.
    intros LG (AL & FT & SU) PO SP. assert (max_fetch p = 2 ^ 32 - 1) as MF by (unfold max_fetch; rewrite SM; reflexivity).
    assert (c_seg_max c < 2 ^ 31) as SG by (destruct CO; lia).
    destruct (read_slice c r H (p_iso p) (max_fetch p) pos CO LG PO ltac:(left; lia)) as (q & sl & p' & RD & EN & BY & Q & NE & EM & SZ & OK & ONE).
    pose proof (logged_chain _ _ _ LG) as CH0.
    unfold send_back. rewrite RD, BY, EN, SM. destruct (batches_between pos q H) as [|b B] eqn:EB.
    - left. split; [reflexivity|]. exact (EM eq_refl).
    - right. destruct (NE ltac:(discriminate)) as (CH & PQ). pose proof (encs_nonempty b B) as NN. destruct (encs (b :: B)) as [|z zs] eqn:EE; [contradiction|]. rewrite <- EE in *.
      assert (receive (encs (b :: B)) = map (received raw_codec) (b :: B)) as RC by (eapply receive_encs; [exact OK|exact SZ|lia]).
      assert (forall y, In y (b :: B) -> In y H /\ pos < batch_end y <= q) as INB.
      { intros y IN. rewrite <- EB in IN. apply filter_In in IN as (IN & F). split; [assumption|lia]. }
      assert (Forall honest (b :: B)) as HO.
      { destruct LG as (old & L & _ & _ & _ & _ & HO). apply Forall_forall. intros y IN. rewrite Forall_forall in HO. apply HO, INB, IN. }
      assert (0 <= p') as P0.
      { destruct (INB b (or_introl eq_refl)) as (IN & _). apply (chain_in _ _ _ _ CH0) in IN. cbn [chain] in CH. lia. }
      rewrite RC. unfold process_batch.
      destruct (process_first sm (p_max p) (b :: B) p' q P0 CH HO ltac:(intros y IN; apply FT; [apply INB, IN|apply INB in IN; lia]))
        as [(-> & FM)|(s0 & s1 & s2 & x0 & x' & d & rc & n & ES & C0 & C1 & C2 & N1 & F0 & PR & NR & D & CT)].
      + cbn [bind b_recs q_recs out0]. left. split; [reflexivity|].
        rewrite <- (bb_join _ _ _ pos q (lim r) CH0) by lia. rewrite EB, flat_map_app, FM.
        destruct SU as [A|A]; [rewrite ONE by lia; reflexivity|]. exfalso.
        apply (A b); [apply INB; left; reflexivity| |].
        { destruct (INB b (or_introl eq_refl)). lia. }
        cbn [flat_map] in FM. apply app_eq_nil in FM as (FM & _). assumption.
      + rewrite PR. cbn [bind b_recs q_recs]. right. destruct rc as [|r0 rc]; [contradiction|]. set (recs := r0 :: rc) in *.
        pose proof (chain_le _ _ _ C2) as L2. pose proof (chain_le _ _ _ C0) as L0.
        assert (batches_between pos x' H = s0 ++ s1) as BX.
        { transitivity (batches_between pos x' (batches_between pos q H)).
          - unfold batches_between. rewrite filter_filter'. apply filter_ext_in'. intros y _. lia.
          - rewrite EB, ES, app_assoc, bb_app. rewrite (bb_none_high _ _ _ pos x' C2) by lia. rewrite app_nil_r.
            eapply bb_all; [eapply chain_app; eassumption| |lia]. intros y t Ey. assert (In y (b :: B)) as IY by (rewrite ES, app_assoc, Ey; left; reflexivity). apply INB in IY. lia. }
        assert (exists y t, s1 = y :: t) as (y & t & Ey) by (destruct s1; [contradiction|eauto]).
        assert (x0 = b_base y) as EX by (rewrite Ey in C1; cbn [chain] in C1; destruct C1; auto).
        assert (In y (b :: B)) as IY by (rewrite ES, Ey; apply in_or_app; right; left; reflexivity).
        destruct (INB y IY) as (IH & EY). pose proof (AL y IH ltac:(lia)) as SB.
        assert (pos < x') as PX. { rewrite Ey in C1. cbn [chain] in C1. destruct C1 as (_ & _ & C1). apply chain_le in C1. unfold batch_end in EY. lia. }
        eexists. exists x', s0, s1, x0. split; [reflexivity|]. split; [lia|]. cbn [next_offset_for_fetch].
        unfold get_last_offset. cbn [b_base b_hdr q_base q_delta with_last_delta h_last_delta].
        replace (x0 + d + 1) with x' by lia. replace (0 <? x') with true by lia. split; [reflexivity|]. split; [assumption|]. split; [assumption|]. split; [assumption|]. split; [assumption|].
        cbn [items]. unfold shown, into_consumer_records. cbn [b_base b_recs b_hdr]. rewrite (shown_all s _ _ _ x0 0) by lia. rewrite Z.add_0_r. f_equal. f_equal. exact CT.
  Qed.

  (** contents only *)
  Definition contents_passed (B : list (batch bytes)) : list content := map content_of (flat_map (passed sm) B).
  Definition out_content (o : list item) (B : list (batch bytes)) : Prop :=
    map (option_map snd) (map snapshot o) = map Some (contents_passed B).
  Lemma contents_app A B : contents_passed (A ++ B) = contents_passed A ++ contents_passed B.
  Proof. unfold contents_passed. rewrite flat_map_app, map_app. reflexivity. Qed.
  Lemma number_contents_snd l : forall o, map snd (number_contents o l) = l.
  Proof. induction l as [|x l IH]; intros o; [reflexivity|]. cbn. rewrite IH. reflexivity. Qed.
  Lemma sends_content r H pos : logged c r H -> smart_log sm (p_max p) s r H -> get_log_start r <= pos <= lim r -> s <= pos ->
    (send_back p r pos = Some (pos, false, None) /\ caught_up H pos (lim r))
    \/ (send_back p r pos = Some (lim r, false, None)
        /\ forall o B, out_content o B -> B = batches_between s pos H -> out_content o (B ++ batches_between pos (lim r) H))
    \/ (exists x q, send_back p r pos = Some (lim r, true, Some x) /\ pos < q <= lim r /\ next_offset_for_fetch x = Some q
        /\ forall o B, out_content o B -> B = batches_between s pos H -> out_content (o ++ items s x) (B ++ batches_between pos q H)).
  Proof.
    intros LG SL PO SP. destruct (smart_send r H pos LG SL PO SP) as [A|[(A & E)|(x & q & s0 & s1 & x0 & A & Q & NX & EB & F0 & CH & N1 & IT)]]; [left; exact A|right; left|right; right].
    - split; [exact A|]. intros o B OO _. unfold out_content in *. rewrite contents_app. unfold contents_passed at 2. rewrite E. cbn [map]. rewrite app_nil_r. exact OO.
    - exists x, q. split; [exact A|]. split; [exact Q|]. split; [exact NX|]. intros o B OO _. unfold out_content in *.
      rewrite contents_app, !map_app, OO. f_equal. rewrite IT, EB, contents_app. unfold contents_passed at 1. rewrite F0. cbn [map app].
      rewrite map_map. unfold contents_passed. rewrite <- (number_contents_snd (map content_of (flat_map (passed sm) s1)) x0) at 2. rewrite map_map. apply map_ext. reflexivity.
  Qed.

  (** offsets too, when the SmartModule drops and adds nothing *)
  Notation numbered_passed := (numbered_passed sm).
  Definition out_numbered (o : list item) (B : list (batch bytes)) : Prop := map snapshot o = map Some (numbered_passed B).
  Notation one_to_one := (one_to_one sm s).
  Lemma number_contents_app A B o : number_contents o (A ++ B) = number_contents o A ++ number_contents (o + zlen A) B.
  Proof.
    revert o. induction A as [|x A IH]; intros o; [unfold zlen; cbn; f_equal; lia|]. cbn [app number_contents]. rewrite IH. unfold zlen. cbn [length app]. do 3 f_equal. lia.
  Qed.
  Lemma numbered_chain B : forall x q, chain x B q -> (forall b, In b B -> zlen (passed sm b) = records_len b) ->
    number_contents x (map content_of (flat_map (passed sm) B)) = numbered_passed B.
  Proof.
    induction B as [|b B IH]; intros x q CH L; [reflexivity|]. cbn [chain] in CH. destruct CH as (E & P & CH). cbn [flat_map].
    unfold StreamSpec.numbered_passed. cbn [flat_map]. fold (numbered_passed B). rewrite map_app, number_contents_app, E. f_equal.
    rewrite <- (IH _ _ CH (fun y IN => L y (or_intror IN))). f_equal. unfold zlen in *. rewrite map_length, <- (L b (or_introl eq_refl)). reflexivity.
  Qed.
  Lemma numbered_app A B : numbered_passed (A ++ B) = numbered_passed A ++ numbered_passed B.
  Proof. apply flat_map_app. Qed.
  Definition exact_log (r : replica) (H : list (batch bytes)) : Prop := smart_log sm (p_max p) s r H /\ one_to_one H.
  Lemma sends_numbered r H pos : logged c r H -> exact_log r H -> get_log_start r <= pos <= lim r -> s <= pos ->
    (send_back p r pos = Some (pos, false, None) /\ caught_up H pos (lim r))
    \/ (send_back p r pos = Some (lim r, false, None)
        /\ forall o B, out_numbered o B -> B = batches_between s pos H -> out_numbered o (B ++ batches_between pos (lim r) H))
    \/ (exists x q, send_back p r pos = Some (lim r, true, Some x) /\ pos < q <= lim r /\ next_offset_for_fetch x = Some q
        /\ forall o B, out_numbered o B -> B = batches_between s pos H -> out_numbered (o ++ items s x) (B ++ batches_between pos q H)).
  Proof.
    intros LG (SL & ONE) PO SP. destruct (smart_send r H pos LG SL PO SP) as [A|[(A & E)|(x & q & s0 & s1 & x0 & A & Q & NX & EB & F0 & CH & N1 & IT)]]; [left; exact A|right; left|right; right].
    - split; [exact A|]. intros o B OO _. assert (batches_between pos (lim r) H = []) as ->; [|rewrite app_nil_r; exact OO].
      pose proof (logged_chain _ _ _ LG) as CH0. destruct (batches_between pos (lim r) H) as [|b t] eqn:EB; [reflexivity|]. exfalso.
      assert (In b (batches_between pos (lim r) H)) as IN by (rewrite EB; left; reflexivity). apply filter_In in IN as (IN & F).
      specialize (ONE b IN ltac:(lia)). apply (chain_in _ _ _ _ CH0) in IN. cbn [flat_map] in E. apply app_eq_nil in E as (E & _). rewrite E in ONE. unfold batch_end in IN. change (zlen (@nil rec)) with 0 in ONE. lia.
    - assert (forall b, In b (s0 ++ s1) -> zlen (passed sm b) = records_len b /\ 0 < records_len b) as LEN.
      { intros b IN. rewrite <- EB in IN. apply filter_In in IN as (IN & F). split; [apply ONE; [assumption|lia]|]. pose proof (logged_chain _ _ _ LG) as CH0. apply (chain_in _ _ _ _ CH0) in IN. unfold batch_end in IN. lia. }
      assert (s0 = []) as E0.
      { destruct s0 as [|b t]; [reflexivity|exfalso]. destruct (LEN b (or_introl eq_refl)) as (L & P). cbn [flat_map] in F0. apply app_eq_nil in F0 as (F0 & _). rewrite F0 in L. change (zlen (@nil rec)) with 0 in L. lia. }
      subst s0. cbn [app] in *. exists x, q. split; [exact A|]. split; [exact Q|]. split; [exact NX|]. intros o B OO _. unfold out_numbered in *.
      rewrite numbered_app, !map_app, OO. f_equal. rewrite IT, EB. f_equal. apply (numbered_chain s1 x0 q CH). intros b IN. apply LEN, IN.
  Qed.
  Lemma exact_back r H a r' new : logged c r H -> op_ok c r a -> live r a -> exec c r a = Done r' -> stored_by a r r' new ->
    exact_log r' (H ++ new) -> exact_log r H.
  Proof.
    intros LG OK LV EX ST (A & B). split; [eapply smart_back; eassumption|]. intros b IN. apply B. apply in_or_app; auto.
  Qed.

  Lemma smart_run r0 H0 H y : hist c r0 H0 -> s <= lim r0 -> run c p s r0 H0 H y -> smart_log sm (p_max p) s (y_store y) H ->
    J c p s out_content y H.
  Proof.
    intros HI SL RN SM'. pose proof (hist_logged _ _ _ CO HI) as LG.
    eapply (J_run c p s CO S0 out_content eq_refl (smart_log sm (p_max p) s)); [apply smart_back|apply sends_content|exact LG|exact SL|exact RN|exact SM'].
  Qed.
  Lemma exact_run r0 H0 H y : hist c r0 H0 -> s <= lim r0 -> run c p s r0 H0 H y -> exact_log (y_store y) H ->
    J c p s out_numbered y H.
  Proof.
    intros HI SL RN SM'. pose proof (hist_logged _ _ _ CO HI) as LG.
    eapply (J_run c p s CO S0 out_numbered eq_refl exact_log); [apply exact_back|apply sends_numbered|exact LG|exact SL|exact RN|exact SM'].
  Qed.
  Lemma seen_content_eq y : seen_content y = map (option_map snd) (map snapshot (y_out y)).
  Proof. unfold seen_content. rewrite map_map. apply map_ext. intros []; reflexivity. Qed.
  Lemma smart_safe r0 H0 H y : hist c r0 H0 -> s <= lim r0 -> run c p s r0 H0 H y -> smart_log sm (p_max p) s (y_store y) H ->
    exists q e, seen_content y = map Some (map content_of (flat_map (passed sm) (batches_between s q H))) ++ e /\ s <= q <= lim (y_store y)
      /\ (e = [] \/ e = [None] /\ y_pc y = Ended /\ q < get_log_start (y_store y)).
  Proof.
    intros HI SL RN DM. pose proof (smart_run _ _ _ _ HI SL RN DM) as IJ.
    destruct (J_given _ _ _ _ _ _ IJ) as (pos & o & e & EO & OO & PO & D). exists pos, (map (option_map snd) (map snapshot e)).
    split; [rewrite seen_content_eq, EO, !map_app, OO; reflexivity|]. split; [lia|]. destruct D as [->|(-> & D)]; [left; reflexivity|right]. split; [reflexivity|exact D].
  Qed.
  Lemma smart_complete r0 H0 H y : hist c r0 H0 -> s <= lim r0 -> run c p s r0 H0 H y -> smart_log sm (p_max p) s (y_store y) H -> quiet p y ->
    seen_content y = map Some (map content_of (flat_map (passed sm) (batches_between s (lim (y_store y)) H))).
  Proof.
    intros HI SL RN DM QU. pose proof (smart_run _ _ _ _ HI SL RN DM) as IJ.
    destruct (J_quiet _ _ _ _ _ _ IJ QU) as (pos & OO & PO & CU). rewrite seen_content_eq, OO. unfold contents_passed. do 3 f_equal.
    pose proof (run_logged c p s CO _ _ _ _ (hist_logged _ _ _ CO HI) RN) as LG.
    rewrite <- (bb_join _ _ _ s pos (lim (y_store y)) (logged_chain _ _ _ LG)) by lia. rewrite (bb_nil_same pos H (lim (y_store y))); [rewrite app_nil_r; reflexivity|lia|assumption].
  Qed.
  Lemma exact_offsets r0 H0 H y : hist c r0 H0 -> s <= lim r0 -> run c p s r0 H0 H y -> exact_log (y_store y) H ->
    exists q e, map snapshot (y_out y) = map Some (numbered_passed (batches_between s q H)) ++ e /\ s <= q <= lim (y_store y) /\ (e = [] \/ e = [None]).
  Proof.
    intros HI SL RN DM. pose proof (exact_run _ _ _ _ HI SL RN DM) as IJ.
    destruct (J_given _ _ _ _ _ _ IJ) as (pos & o & e & EO & OO & PO & D). exists pos, (map snapshot e).
    split; [rewrite EO, !map_app, OO; reflexivity|]. split; [lia|]. destruct D as [->|(-> & D)]; [left; reflexivity|right; reflexivity].
  Qed.
  Lemma smart_ends r0 H0 H y : hist c r0 H0 -> s <= lim r0 -> run c p s r0 H0 H y -> smart_log sm (p_max p) s (y_store y) H ->
    Acc (fun y' y => moves p s y y') y /\ ((forall y', ~ moves p s y y') -> quiet p y \/ y_pc y = Ended).
  Proof.
    intros HI SL RN DM. pose proof (smart_run _ _ _ _ HI SL RN DM) as IJ. split.
    - eapply (J_ends c p s S0 out_content (smart_log sm (p_max p) s)); [apply smart_back|apply sends_content|exact IJ|exact DM].
    - eapply J_stuck; exact IJ.
  Qed.
End Smart.

(** * Concrete streams *)

(** The first enabled move. *)
Definition next_move (p : params) (s : Z) (y : sys) : option sys :=
  match y_net y, y_acks y with
  | _ :: _, _ => Some (on_reply s y)
  | [], _ :: _ => Some (on_update y)
  | [], [] =>
      match y_pc y with
      | Sending st => Some (do_send p y st)
      | Ended => None
      | Waiting => if negb (y_pub y =? y_ack_seen y) then Some (on_ack y)
                   else if negb (log_limit (p_iso p) (y_store y) =? y_end_seen y) then Some (on_end p y) else None
      end
  end.
Fixpoint drive (p : params) (s : Z) (n : nat) (y : sys) : sys :=
  match n with O => y | S n => match next_move p s y with None => y | Some y' => drive p s n y' end end.
Lemma next_moves p s y y' : next_move p s y = Some y' -> moves p s y y'.
Proof.
  unfold next_move. destruct (y_net y) as [|x t] eqn:EN; [destruct (y_acks y) as [|q t] eqn:EA|].
  - destruct (y_pc y) eqn:PC; intros E; [inversion E; subst; apply m_send; assumption| |discriminate].
    destruct (y_pub y =? y_ack_seen y) eqn:PA; cbn [negb] in E.
    + destruct (log_limit (p_iso p) (y_store y) =? y_end_seen y) eqn:PE; cbn [negb] in E; [discriminate|]. inversion E; subst. apply m_end; [assumption|lia].
    + inversion E; subst. apply m_ack; [assumption|lia].
  - intros E; inversion E; subst. apply m_update. congruence.
  - intros E; inversion E; subst. apply m_reply. congruence.
Qed.
Lemma drive_run c p s r0 H0 H n : forall y, run c p s r0 H0 H y -> run c p s r0 H0 H (drive p s n y).
Proof.
  induction n as [|n IH]; intros y R; [exact R|]. cbn [drive]. destruct (next_move p s y) as [y'|] eqn:E; [|exact R].
  apply IH. eapply run_move; [exact R|]. apply next_moves. assumption.
Qed.

(** A batch as a client makes it. *)
Definition text (v : bytes) : rec := mkRec 0 0 0 None v 0.
Definition msgs (l : list bytes) : batch bytes :=
  to_raw (mkBatch 0 0 (with_last_delta default_header (zlen l - 1)) 0 (number_from 0 (map text l))).
Ltac msgs_ok := split; [closed_range|split; [closed_range|split; [apply plain_header_ok; closed_range|split; [vm_compute; repeat constructor; discriminate|vm_compute; reflexivity]]]].
Ltac honest_tac := eexists; split; vm_compute; reflexivity.

Definition put (c : config) (upd : bool) (r : replica) (l : list (batch bytes)) : replica := fst (write_recordset c 0 r l upd).
Lemma hist_put c r H l upd n : hist c r H -> Forall raw_batch_ok l -> room r l -> Forall honest l ->
  chain (get_leo r) (number (get_leo r) (firstn n l)) (get_leo (put c upd r l)) ->
  hist c (put c upd r l) (H ++ number (get_leo r) (firstn n l)).
Proof.
  intros HI OK RM HO CH. eapply hist_step with (a := Write 0 l upd); [exact HI|split; assumption|exact HO|reflexivity|].
  split; [exact CH|]. exists n. reflexivity.
Qed.

(** Three batches in two segments: 0,1 | 2 || 3,4. *)
Definition st_c : config := mkConfig 160 1000 10 100 10000 10.
Definition st_l : list (batch bytes) := [msgs [[1]; [2]]; msgs [[3]]; msgs [[4]; [5]]].
Definition st_r : replica := put st_c true (fresh st_c 0) st_l.
Definition st_H : list (batch bytes) := number 0 st_l.
Lemma st_c_ok : config_ok st_c. Proof. unfold config_ok, st_c. cbn. lia. Qed.
Lemma st_hist : hist st_c st_r st_H.
Proof.
  change st_H with ([] ++ number (get_leo (fresh st_c 0)) (firstn 3 st_l)). apply hist_put; [constructor| | | |].
  - unfold st_l. repeat (constructor; [msgs_ok|]). constructor.
  - room_tac.
  - unfold st_l. repeat (constructor; [honest_tac|]). constructor.
  - vm_compute. repeat split; reflexivity.
Qed.
Lemma st_shape : map g_base (r_prev st_r) = [0] /\ m_base (r_active st_r) = 3 /\ get_leo st_r = 5 /\ get_hw st_r = 5.
Proof. vm_compute. auto. Qed.

Lemma quiet_drive p s n y : next_move p s (drive p s n y) = None -> y_pc (drive p s n y) <> Ended -> quiet p (drive p s n y).
Proof.
  generalize (drive p s n y). intros z E NE. unfold next_move in E. destruct (y_net z) eqn:EN; [|discriminate]. destruct (y_acks z) eqn:EA; [|discriminate].
  destruct (y_pc z) eqn:PC; [discriminate| |contradiction]. destruct (y_pub z =? y_ack_seen z) eqn:A; cbn [negb] in E; [|discriminate].
  destruct (log_limit (p_iso p) (y_store z) =? y_end_seen z) eqn:B; cbn [negb] in E; [|discriminate]. repeat split; auto; lia.
Qed.
Definition at_rest (p : params) (s : Z) (r : replica) : sys := drive p s 40 (start_stream r s).
Lemma rest_run c p s r H : run c p s r H H (at_rest p s r).
Proof. apply drive_run. constructor. Qed.
Ltac rest_tac := apply quiet_drive; [vm_compute; reflexivity|vm_compute; discriminate].

Definition plain (mx : Z) : params := mkParams ReadCommitted mx None.
Lemma plain_demo : run st_c (plain 160) 1 st_r st_H st_H (at_rest (plain 160) 1 st_r) /\ one_response st_c (plain 160) 1 st_r st_H
  /\ quiet (plain 160) (at_rest (plain 160) 1 st_r)
  /\ map val_of (seen (at_rest (plain 160) 1 st_r)) = [Some (1, [2]); Some (2, [3]); Some (3, [4]); Some (4, [5])].
Proof. split; [apply rest_run|]. split; [left; cbn; lia|]. split; [rest_tac|]. vm_compute. reflexivity. Qed.

(** Lost at the end of a slice *)
Lemma cut_refuted : exists c p s r H y b, config_ok c /\ p_sm p = None /\ hist c r H /\ 0 <= s <= log_limit (p_iso p) r
  /\ run c p s r H H y /\ quiet p y /\ In b H /\ s <= b_base b /\ batch_end b <= log_limit (p_iso p) (y_store y)
  /\ exists x, In x (records_of b) /\ ~ In (Some x) (seen y).
Proof.
  exists st_c, (plain 69), 0, st_r, st_H. eexists. exists (nth 0 st_H (demo 0 0)). split; [apply st_c_ok|]. split; [reflexivity|]. split; [apply st_hist|]. split; [vm_compute; split; congruence|].
  split; [apply (rest_run st_c (plain 69) 0 st_r st_H)|]. split; [rest_tac|]. split; [left; reflexivity|]. split; [vm_compute; congruence|]. split; [vm_compute; congruence|].
  exists (1, mkRec 0 0 1 None [2] 0). split; [vm_compute; auto|]. vm_compute. intros IN. repeat destruct IN as [IN|IN]; try discriminate IN; assumption.
Qed.
(** A limit smaller than a batch header: nothing is ever delivered *)
Lemma stuck_refuted : exists c p s r H y, config_ok c /\ p_sm p = None /\ hist c r H /\ 0 <= s < log_limit (p_iso p) r
  /\ run c p s r H H y /\ quiet p y /\ y_out y = [].
Proof.
  exists st_c, (plain 40), 0, st_r, st_H. eexists. split; [apply st_c_ok|]. split; [reflexivity|]. split; [apply st_hist|]. split; [vm_compute; split; congruence|].
  split; [apply (rest_run st_c (plain 40) 0 st_r st_H)|]. split; [rest_tac|]. vm_compute. reflexivity.
Qed.
(** A committed read that starts above the watermark delivers what is not committed *)
Definition un_r : replica := put st_c false (fresh st_c 0) [msgs [[1]; [2]]; msgs [[3]]].
Lemma un_hist : hist st_c un_r (number 0 [msgs [[1]; [2]]; msgs [[3]]]).
Proof.
  change (number 0 [msgs [[1]; [2]]; msgs [[3]]]) with ([] ++ number (get_leo (fresh st_c 0)) (firstn 2 [msgs [[1]; [2]]; msgs [[3]]])). apply hist_put; [constructor| | | |].
  - repeat (constructor; [msgs_ok|]). constructor.
  - room_tac.
  - repeat (constructor; [honest_tac|]). constructor.
  - vm_compute. repeat split; reflexivity.
Qed.
Lemma uncommitted_refuted : exists c p s r H y x, config_ok c /\ p_sm p = None /\ p_iso p = ReadCommitted /\ hist c r H /\ get_hw r < s
  /\ run c p s r H H y /\ get_hw (y_store y) <= fst x /\ In (Some x) (seen y).
Proof.
  exists st_c, (plain 160), 2, un_r, (number 0 [msgs [[1]; [2]]; msgs [[3]]]). eexists. exists (2, mkRec 0 0 0 None [3] 0). split; [apply st_c_ok|]. split; [reflexivity|]. split; [reflexivity|].
  split; [apply un_hist|]. split; [vm_compute; reflexivity|].
  split; [apply (rest_run st_c (plain 160) 2 un_r)|]. split; [vm_compute; congruence|]. vm_compute. auto.
Qed.

(** SmartModules *)
Definition keep (f : bytes -> bool) : smart := fun _ l => filter (fun r => f (r_val r)) l.
Definition is (n : Z) (v : bytes) : bool := match v with [x] => x =? n | _ => false end.
Definition filtered (mx : Z) (sm : smart) : params := mkParams ReadCommitted mx (Some sm).
Definition odd : smart := keep (fun v => match v with [x] => Z.odd x | _ => false end).
Lemma smart_demo : run st_c (filtered 100 odd) 0 st_r st_H st_H (at_rest (filtered 100 odd) 0 st_r) /\ smart_log odd 100 0 st_r st_H
  /\ quiet (filtered 100 odd) (at_rest (filtered 100 odd) 0 st_r)
  /\ map val_of (seen (at_rest (filtered 100 odd) 0 st_r)) = [Some (0, [1]); Some (1, [3]); Some (3, [5])].
Proof.
  split; [apply rest_run|]. split.
  - split; [intros b IN _; repeat destruct IN as [<-|IN]; try contradiction IN; vm_compute; congruence|].
    split; [intros b IN _; repeat destruct IN as [<-|IN]; try contradiction IN; vm_compute; congruence|].
    right. intros b IN _; repeat destruct IN as [<-|IN]; try contradiction IN; vm_compute; congruence.
  - split; [rest_tac|]. vm_compute. reflexivity.
Qed.
Definition upper : smart := fun _ l => map (fun r => set_off (r_off r) (text (map (Z.add 64) (r_val r)))) l.
Lemma exact_demo : smart_log upper 100 0 st_r st_H /\ one_to_one upper 0 st_H
  /\ map val_of (seen (at_rest (filtered 100 upper) 0 st_r)) = [Some (0, [65]); Some (1, [66]); Some (2, [67]); Some (3, [68]); Some (4, [69])].
Proof.
  split; [|split].
  - split; [intros b IN _; repeat destruct IN as [<-|IN]; try contradiction IN; vm_compute; congruence|].
    split; [intros b IN _; repeat destruct IN as [<-|IN]; try contradiction IN; vm_compute; congruence|].
    right. intros b IN _; repeat destruct IN as [<-|IN]; try contradiction IN; vm_compute; congruence.
  - intros b IN _; repeat destruct IN as [<-|IN]; try contradiction IN; vm_compute; congruence.
  - vm_compute. reflexivity.
Qed.

Lemma too_big_refuted : exists c p sm s r H y b, lost c p sm s r H y b /\ aligned s H /\ sure sm r s H.
Proof.
  exists st_c, (filtered 5 odd), odd, 0, st_r, st_H. eexists. exists (nth 0 st_H (demo 0 0)). split; [|split].
  - split; [apply st_c_ok|]. split; [reflexivity|]. split; [apply st_hist|]. split; [vm_compute; split; congruence|].
    split; [apply (rest_run st_c (filtered 5 odd) 0 st_r st_H)|]. split; [rest_tac|]. split; [left; reflexivity|]. split; [vm_compute; split; congruence|]. split; [vm_compute; discriminate|vm_compute; reflexivity].
  - apply smart_demo.
  - apply smart_demo.
Qed.
Lemma segment_refuted : exists c p sm s r H y b, lost c p sm s r H y b /\ aligned s H /\ fits sm (p_max p) s H.
Proof.
  exists st_c, (filtered 100 (keep (is 4))), (keep (is 4)), 0, st_r, st_H. eexists. exists (nth 2 st_H (demo 0 0)). split; [|split].
  - split; [apply st_c_ok|]. split; [reflexivity|]. split; [apply st_hist|]. split; [vm_compute; split; congruence|].
    split; [apply (rest_run st_c (filtered 100 (keep (is 4))) 0 st_r st_H)|]. split; [rest_tac|]. split; [right; right; left; reflexivity|]. split; [vm_compute; split; congruence|]. split; [vm_compute; discriminate|vm_compute; reflexivity].
  - apply smart_demo.
  - intros b IN _; repeat destruct IN as [<-|IN]; try contradiction IN; vm_compute; congruence.
Qed.
Lemma un_committed_hist : hist st_c (put st_c true (fresh st_c 0) [msgs [[1]; [2]]]) (number 0 [msgs [[1]; [2]]]).
Proof.
  change (number 0 [msgs [[1]; [2]]]) with ([] ++ number (get_leo (fresh st_c 0)) (firstn 1 [msgs [[1]; [2]]])). apply hist_put; [constructor| | | |].
  - repeat (constructor; [msgs_ok|]). constructor.
  - room_tac.
  - repeat (constructor; [honest_tac|]). constructor.
  - vm_compute. repeat split; reflexivity.
Qed.
Lemma inside_refuted : exists c p sm s r H y b x, lost c p sm s r H y b /\ fits sm (p_max p) s H /\ sure sm r s H
  /\ In x (records_of b) /\ s <= fst x /\ In (snd x) (passed sm b).
Proof.
  exists st_c, (filtered 100 (keep (is 2))), (keep (is 2)), 1, (put st_c true (fresh st_c 0) [msgs [[1]; [2]]]), (number 0 [msgs [[1]; [2]]]). eexists. exists (nth 0 st_H (demo 0 0)), (1, mkRec 0 0 1 None [2] 0).
  split; [|split; [|split; [|split; [|split]]]].
  - split; [apply st_c_ok|]. split; [reflexivity|]. split; [apply un_committed_hist|]. split; [vm_compute; split; congruence|].
    split; [apply (rest_run st_c (filtered 100 (keep (is 2))) 1)|]. split; [rest_tac|]. split; [left; reflexivity|]. split; [vm_compute; split; congruence|]. split; [vm_compute; discriminate|vm_compute; reflexivity].
  - intros b IN _; repeat destruct IN as [<-|IN]; try contradiction IN; vm_compute; congruence.
  - left. vm_compute. congruence.
  - vm_compute. auto.
  - vm_compute. congruence.
  - vm_compute. auto.
Qed.
Lemma offset_refuted : exists c p sm s r H y o v, config_ok c /\ p_sm p = Some sm /\ hist c r H /\ 0 <= s <= log_limit (p_iso p) r
  /\ run c p s r H H y /\ smart_log sm (p_max p) s r H
  /\ In (Some (o, v)) (map val_of (seen y)) /\ ~ In (o, v) (map (fun x => (fst x, r_val (snd x))) (flat_map records_of H)).
Proof.
  exists st_c, (filtered 100 odd), odd, 0, st_r, st_H. eexists. exists 1, [3]. split; [apply st_c_ok|]. split; [reflexivity|]. split; [apply st_hist|]. split; [vm_compute; split; congruence|].
  split; [apply (rest_run st_c (filtered 100 odd) 0 st_r st_H)|]. split; [apply smart_demo|]. split; [vm_compute; auto|]. vm_compute. intros IN. repeat destruct IN as [IN|IN]; try discriminate IN; assumption.
Qed.
