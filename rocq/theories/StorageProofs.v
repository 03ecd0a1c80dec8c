From Verif Require Import StorageModel StorageSpec RecordSpec RecordProofs WireProofs ListFacts.

(** * Reading one batch *)
Definition encs (l : list (batch bytes)) : bytes := flat_map renc l.
Lemma encs_app a b : encs (a ++ b) = encs a ++ encs b.
Proof. apply flat_map_app. Qed.
Lemma encs_cons b l : encs (b :: l) = renc b ++ encs l.
Proof. reflexivity. Qed.

Lemma raw_ok_batch (b : batch bytes) : raw_batch_ok b -> batch_ok is_bytes (fun a => zlen (c_enc raw_codec a)) b.
Proof. intros H. exact H. Qed.
Lemma renc_pos b : 57 <= zlen (renc b).
Proof. apply (batch_enc_pos raw_codec [] is_bytes raw_dec_full raw_size raw_bytes raw_empty). Qed.
Lemma renc_len (b : batch bytes) : raw_batch_ok b -> zlen (renc b) = 12 + calc_batch_len raw_codec b.
Proof.
  intros H. unfold renc. rewrite batch_enc_front, zlen_app, front_zlen. unfold front_len.
  rewrite (calc_len raw_codec [] is_bytes raw_dec_full raw_size raw_bytes raw_empty b (raw_ok_batch b H)). lia.
Qed.
Definition stored_hdr (b : batch bytes) : bheader := received_hdr raw_codec b.
Lemma stored_delta b : h_last_delta (stored_hdr b) = h_last_delta (b_hdr b).
Proof. reflexivity. Qed.
Definition blen (b : batch bytes) := calc_batch_len raw_codec b.

Lemma blen_range (b : batch bytes) : raw_batch_ok b -> 45 <= blen b < 2 ^ 31 - 12.
Proof.
  intros H. unfold blen. rewrite (calc_len raw_codec [] is_bytes raw_dec_full raw_size raw_bytes raw_empty b (raw_ok_batch b H)).
  destruct H as (_ & _ & _ & _ & Hl). pose proof (zlen_nonneg (b_recs b)).
  rewrite schema_zlen. cbn [c_enc raw_codec]. destruct (has_schema _); lia.
Qed.

Lemma content_len (b : batch bytes) : raw_batch_ok b ->
  as_usize (as_usize (blen b) - BATCH_HEADER_SIZE) = blen b - 45.
Proof.
  intros H. pose proof (blen_range b H). unfold BATCH_HEADER_SIZE.
  change (2 ^ 31) with 2147483648 in *.
  rewrite (as_usize_id (blen b)) by (change (2 ^ 63) with 9223372036854775808; lia).
  apply as_usize_id. change (2 ^ 63) with 9223372036854775808; lia.
Qed.

Lemma renc_split (b : batch bytes) : renc b = hdr_bytes (b_base b) (blen b) (stored_hdr b) ++ (schema_bytes b ++ b_recs b).
Proof. unfold renc. rewrite batch_enc_front. unfold front. rewrite <- app_assoc. reflexivity. Qed.
Lemma hdr_zlen base len h : zlen (hdr_bytes base len h) = 57.
Proof. unfold zlen. rewrite hdr_bytes_length. reflexivity. Qed.

Lemma hdr_take base len h rest : ztake 57 (hdr_bytes base len h ++ rest) = hdr_bytes base len h.
Proof. pose proof (ztake_app_exact (hdr_bytes base len h) rest) as X. rewrite hdr_zlen in X. exact X. Qed.

Lemma nonempty_cons {A} (l : list A) : 0 < zlen l -> exists x t, l = x :: t.
Proof. destruct l; [unfold zlen; cbn [length]; lia|eauto]. Qed.

Lemma read_from_whole pre (b : batch bytes) rest : raw_batch_ok b ->
  read_from (pre ++ renc b ++ rest) (zlen pre) =
  SBatch (b_base b) (blen b) (stored_hdr b) (zlen pre + zlen (renc b)).
Proof.
  intros H. unfold read_from. rewrite zdrop_app_exact.
  pose proof (renc_pos b) as P. pose proof (renc_split b) as S.
  pose proof (recv_header_ok raw_codec [] is_bytes raw_dec_full raw_size raw_bytes raw_empty b (raw_ok_batch b H)) as HO.
  change BATCH_FILE_HEADER_SIZE with 57.
  assert (ztake 57 (renc b ++ rest) = hdr_bytes (b_base b) (blen b) (stored_hdr b)) as T.
  { rewrite S. rewrite <- (app_assoc (hdr_bytes (b_base b) (blen b) (stored_hdr b))). apply hdr_take. }
  rewrite T. rewrite hdr_zlen.
  destruct (nonempty_cons (hdr_bytes (b_base b) (blen b) (stored_hdr b))) as (x & t & E); [rewrite hdr_zlen; lia|].
  rewrite E at 1. change (57 <? 57) with false. cbv iota.
  pose proof (header_dec_full _ _ _ [] HO) as D. rewrite app_nil_r in D.
  change (received_hdr raw_codec b) with (stored_hdr b) in D. change (calc_batch_len raw_codec b) with (blen b) in D.
  rewrite D. rewrite content_len by assumption.
  pose proof (blen_range b H) as BR. pose proof (renc_len b H) as RL. fold (blen b) in RL.
  change (2 ^ 31) with 2147483648 in *.
  assert (wrap_u 32 (blen b - 45) = blen b - 45) as W.
  { apply wrap_u_id. unfold in_u. change (2 ^ 32) with 4294967296. lia. }
  rewrite W.
  assert (zlen (ztake (blen b - 45) (zdrop (zlen pre + 57) (pre ++ renc b ++ rest))) = blen b - 45) as L.
  { rewrite zlen_ztake, zlen_zdrop, !zlen_app. pose proof (zlen_nonneg pre). pose proof (zlen_nonneg rest). lia. }
  rewrite L. rewrite Z.ltb_irrefl. f_equal. lia.
Qed.

Lemma read_from_end l : read_from l (zlen l) = SEnd.
Proof. unfold read_from. rewrite zdrop_all by lia. reflexivity. Qed.

Lemma read_from_cut pre (b : batch bytes) k : raw_batch_ok b -> 0 < k < zlen (renc b) ->
  read_from (pre ++ ztake k (renc b)) (zlen pre) = SShort.
Proof.
  intros H Hk. unfold read_from. rewrite zdrop_app_exact.
  pose proof (renc_pos b) as P. pose proof (renc_split b) as S.
  pose proof (recv_header_ok raw_codec [] is_bytes raw_dec_full raw_size raw_bytes raw_empty b (raw_ok_batch b H)) as HO.
  change BATCH_FILE_HEADER_SIZE with 57.
  assert (zlen (ztake 57 (ztake k (renc b))) = Z.min 57 k) as L by (rewrite !zlen_ztake; lia).
  destruct (nonempty_cons (ztake 57 (ztake k (renc b)))) as (x & t & E); [lia|].
  rewrite E at 1. rewrite L.
  destruct (Z.min 57 k <? 57) eqn:C; [reflexivity|].
  assert (ztake 57 (ztake k (renc b)) = hdr_bytes (b_base b) (blen b) (stored_hdr b)) as T.
  { rewrite S. rewrite (ztake_app_ge k) by (rewrite hdr_zlen; lia). rewrite hdr_zlen.
    apply hdr_take. }
  rewrite T.
  pose proof (header_dec_full _ _ _ [] HO) as D. rewrite app_nil_r in D.
  change (received_hdr raw_codec b) with (stored_hdr b) in D. change (calc_batch_len raw_codec b) with (blen b) in D.
  rewrite D. rewrite content_len by assumption.
  pose proof (blen_range b H) as BR. pose proof (renc_len b H) as RL. fold (blen b) in RL.
  change (2 ^ 31) with 2147483648 in *.
  assert (wrap_u 32 (blen b - 45) = blen b - 45) as W.
  { apply wrap_u_id. unfold in_u. change (2 ^ 32) with 4294967296. lia. }
  rewrite W.
  assert (zlen (ztake (blen b - 45) (zdrop (zlen pre + 57) (pre ++ ztake k (renc b)))) < blen b - 45) as LT.
  { rewrite zlen_ztake, zlen_zdrop, !zlen_app, zlen_ztake. pose proof (zlen_nonneg pre). lia. }
  apply Z.ltb_lt in LT. rewrite LT. reflexivity.
Qed.

(** * Chains *)
Lemma chain_app s a e b : forall m, chain s a m -> chain m b e -> chain s (a ++ b) e.
Proof.
  revert s. induction a as [|x a IH]; intros s m; cbn [chain app].
  - intros ->. auto.
  - intros (H1 & H2 & H3) H4. split; [assumption|]. split; [assumption|]. eapply IH; eassumption.
Qed.
Lemma chain_split s a b e : chain s (a ++ b) e -> exists m, chain s a m /\ chain m b e.
Proof.
  revert s. induction a as [|x a IH]; intros s; cbn [chain app].
  - intros H. exists s. auto.
  - intros (H1 & H2 & H3). apply IH in H3 as (m & Ha & Hb). exists m. auto.
Qed.
Lemma chain_total s l e : chain s l e -> e = s + total l.
Proof. revert s. induction l as [|b l IH]; intros s; cbn [chain total]; [lia|]. intros (_ & _ & H). apply IH in H. lia. Qed.
Lemma chain_le s l e : chain s l e -> s <= e.
Proof. revert s. induction l as [|b l IH]; intros s; cbn [chain]; [lia|]. intros (_ & ? & H). apply IH in H. lia. Qed.
Lemma chain_lt s l e : chain s l e -> l <> [] -> s < e.
Proof. destruct l as [|b l]; [congruence|]. intros (_ & ? & H) _. apply chain_le in H. lia. Qed.
Lemma chain_fun s l e e' : chain s l e -> chain s l e' -> e = e'.
Proof. intros A B. apply chain_total in A, B. lia. Qed.
Lemma chain_find s l e o : chain s l e -> s <= o < e -> exists a b c, l = a ++ b :: c /\ contains b o /\ chain s a (b_base b).
Proof.
  revert s. induction l as [|b l IH]; intros s; cbn [chain]; [lia|].
  intros (E & P & H) Ho. destruct (Z.lt_ge_cases o (s + records_len b)).
  - exists [], b, l. split; [reflexivity|]. split; [unfold contains; lia|]. cbn [chain]. auto.
  - apply IH in H as (a & b' & c & -> & Hc & Ha); [|lia]. exists (b :: a), b', c.
    split; [reflexivity|]. split; [assumption|]. cbn [chain]. split; [assumption|]. split; [assumption|]. assumption.
Qed.
Lemma last_offset_records (b : batch bytes) : 0 < records_len b -> h_last_delta (b_hdr b) = records_len b - 1.
Proof. unfold records_len. destruct (_ <? 0); lia. Qed.

(** * Scanning *)
Lemma scan_for_finds c : forall fuel pre a b s o,
  Forall raw_batch_ok (a ++ b :: c) -> chain s a (b_base b) -> contains b o -> (forall x, In x a -> b_base x + records_len x <= o) ->
  (length a < fuel)%nat ->
  scan_for fuel (pre ++ encs (a ++ b :: c)) (zlen pre) o = Done (Some (zlen pre + zlen (encs a))).
Proof.
  induction fuel as [|f IH]; intros pre a b s o OK CH CT LOW F; [lia|].
  destruct a as [|x a].
  - cbn [app] in *. apply Forall_cons_iff in OK as [OKb OKc]. rewrite encs_cons. cbn [scan_for].
    rewrite read_from_whole by assumption. unfold contains in CT.
    rewrite stored_delta, last_offset_records by lia.
    replace (o <=? b_base b + (records_len b - 1)) with true by lia.
    change (zlen (encs [])) with 0. rewrite Z.add_0_r. reflexivity.
  - cbn [app] in *. apply Forall_cons_iff in OK as [OKx OK]. rewrite encs_cons. cbn [scan_for].
    rewrite read_from_whole by assumption. cbn [chain] in CH. destruct CH as (E & P & CH).
    rewrite stored_delta, last_offset_records by assumption.
    pose proof (LOW x (or_introl eq_refl)).
    replace (o <=? b_base x + (records_len x - 1)) with false by lia.
    rewrite app_assoc. rewrite <- (zlen_app pre (renc x)).
    rewrite (IH (pre ++ renc x) a b (s + records_len x) o); [|assumption|assumption|assumption| |cbn [length] in F; lia].
    + rewrite encs_cons, !zlen_app. f_equal. f_equal. lia.
    + intros y Hy. apply LOW. right. assumption.
Qed.

Lemma chain_below s a m : chain s a m -> forall x, In x a -> b_base x + records_len x <= m.
Proof.
  revert s. induction a as [|y a IH]; intros s CH x Hx; [destruct Hx|].
  cbn [chain] in CH. destruct CH as (E & P & CH). destruct Hx as [->|Hx].
  - apply chain_le in CH. lia.
  - eapply IH; eassumption.
Qed.

Lemma encs_length_ge l : Z.of_nat (length l) <= zlen (encs l).
Proof. induction l as [|b l IH]; [cbn; unfold zlen; cbn; lia|]. rewrite encs_cons, zlen_app. pose proof (renc_pos b). cbn [length]. lia. Qed.

(** Scanning from a batch boundary at or before the batch with offset [o]. *)
Lemma scan_from_boundary p a b c s o : Forall raw_batch_ok (p ++ a ++ b :: c) ->
  chain s a (b_base b) -> contains b o ->
  scan_for (S (length (encs (p ++ a ++ b :: c)))) (encs (p ++ a ++ b :: c)) (zlen (encs p)) o
  = Done (Some (zlen (encs (p ++ a)))).
Proof.
  intros OK CH CT. rewrite (encs_app p (a ++ b :: c)). rewrite (encs_app p a), zlen_app.
  apply scan_for_finds with (s := s).
  - apply Forall_app in OK. tauto.
  - assumption.
  - assumption.
  - intros x Hx. pose proof (chain_below _ _ _ CH x Hx). unfold contains in CT. lia.
  - pose proof (encs_length_ge (a ++ b :: c)) as L. rewrite app_length in L. cbn [length] in L.
    rewrite app_length. unfold zlen in L. lia.
Qed.

(** * Index *)
(** An entry points at the start of a batch of the segment. *)
Definition entry_ok (base : Z) (l : list (batch bytes)) (e : entry) : Prop :=
  exists p q, l = p ++ q /\ snd e = zlen (encs p) /\ chain base p (base + fst e).

Lemma bsearch_range fuel : forall l delta base size, (0 < size)%nat -> (base + size <= length l)%nat ->
  fst (nth_entry l base) <= delta ->
  let i := bsearch fuel l delta base size in
  (i < length l)%nat /\ fst (nth_entry l i) <= delta.
Proof.
  induction fuel as [|f IH]; intros l delta base size Hs Hb Hle; cbn [bsearch]; [split; [lia|assumption]|].
  destruct (1 <? size)%nat eqn:E; [|split; [lia|assumption]].
  apply Nat.ltb_lt in E.
  assert (Nat.div2 size < size /\ 0 < Nat.div2 size)%nat as [D1 D2].
  { split; [apply Nat.lt_div2; lia|]. destruct size as [|[|size]]; [lia|lia|cbn [Nat.div2]; lia]. }
  destruct (delta <? fst (nth_entry l (base + Nat.div2 size))) eqn:C; apply IH; lia.
Qed.

Lemma lookup_spec l delta :
  match lookup_entry l delta with
  | None => l = [] \/ delta < fst (nth_entry l 0)
  | Some e => In e l /\ fst e <= delta
  end.
Proof.
  unfold lookup_entry. destruct l as [|e0 l]; [left; reflexivity|].
  destruct (delta <? fst e0) eqn:C; [right; cbn; lia|].
  pose proof (bsearch_range (length (e0 :: l)) (e0 :: l) delta 0 (length (e0 :: l)) ltac:(cbn [length]; lia) ltac:(lia) ltac:(cbn; lia)) as (R & L).
  cbv zeta in *. set (i := bsearch _ _ _ _ _) in *. clearbody i.
  assert (In (nth_entry (e0 :: l) i) (e0 :: l)) as I by (apply nth_In; assumption).
  destruct (_ =? delta) eqn:C2; [split; [assumption|lia]|].
  destruct (_ <? delta) eqn:C3; [split; [assumption|lia]|]. lia.
Qed.

(** Wherever the lookup leads, the scan from there finds the batch. *)
Definition ipos_ok (base : Z) (l : list (batch bytes)) (ipos : Z -> Z) : Prop :=
  forall delta, 0 <= delta -> exists p q d, l = p ++ q /\ ipos delta = zlen (encs p) /\ chain base p (base + d) /\ d <= delta.

Lemma ipos_lookup base l es : Forall (entry_ok base l) es ->
  ipos_ok base l (fun delta => match lookup_entry es delta with Some (_, p) => p | None => 0 end).
Proof.
  intros H delta Hd. pose proof (lookup_spec es delta) as S. destruct (lookup_entry es delta) as [[o p]|].
  - destruct S as [I L]. rewrite Forall_forall in H. destruct (H _ I) as (a & q & E & P & C). cbn [fst snd] in *.
    exists a, q, o. auto.
  - exists [], l, 0. split; [reflexivity|]. split; [reflexivity|]. split; [cbn [chain]; lia|lia].
Qed.

Lemma find_position base end_ l ipos o a b c : Forall raw_batch_ok l -> chain base l end_ -> end_ - base < 2 ^ 32 ->
  ipos_ok base l ipos -> l = a ++ b :: c -> chain base a (b_base b) -> contains b o ->
  find_offset_position base end_ (encs l) ipos o = Done (Some (zlen (encs a))).
Proof.
  intros OK CH SP IP E CA CT. unfold find_offset_position.
  assert (base <= o < end_) as Ho.
  { subst l. apply chain_split in CH as (m & H1 & H2). pose proof (chain_fun _ _ _ _ H1 CA) as ->.
    cbn [chain] in H2. destruct H2 as (_ & _ & H2). apply chain_le in H2, CA. unfold contains in CT. lia. }
  replace (o <? base) with false by lia. replace (end_ <=? o) with false by lia.
  rewrite wrap_u_id by (unfold in_u; lia).
  destruct (IP (o - base) ltac:(lia)) as (p & q & d & E2 & -> & CP & Hd).
  (* p is a prefix of a *)
  assert (exists a2, a = p ++ a2) as (a2 & ->).
  { clear IP OK SP CH. subst l. revert base a d CA E2 CP Hd Ho. induction p as [|x p IH]; intros base a d CA E2 CP Hd Ho; [exists a; reflexivity|].
    destruct a as [|y a].
    - cbn [app] in E2. injection E2 as -> E2. exfalso. cbn [chain] in CP, CA. destruct CP as (_ & P & CP). apply chain_le in CP.
      unfold contains in CT. lia.
    - cbn [app] in E2. injection E2 as -> E2. cbn [chain] in CA, CP. destruct CA as (B1 & P1 & CA). destruct CP as (_ & _ & CP).
      destruct (IH (base + records_len x) a (d - records_len x) CA E2) as (a2 & ->).
      + replace (base + records_len x + (d - records_len x)) with (base + d) by lia. exact CP.
      + lia.
      + pose proof (chain_le _ _ _ CA). unfold contains in CT. lia.
      + exists a2. reflexivity. }
  apply chain_split in CA as (m & _ & CA2).
  rewrite E. rewrite <- app_assoc. apply scan_from_boundary with (s := m); [|assumption|assumption].
  rewrite app_assoc. rewrite <- E. assumption.
Qed.

(** * Slices *)
Lemma split_order base e o o' : forall a b c a' b' c', chain base (a ++ b :: c) e -> a ++ b :: c = a' ++ b' :: c' ->
  contains b o -> contains b' o' -> o <= o' -> exists mid, a' = a ++ mid /\ b :: c = mid ++ b' :: c'.
Proof.
  intros a. revert base. induction a as [|x a IH]; intros base b c a' b' c' CH E C1 C2 L.
  - exists a'. auto.
  - destruct a' as [|y a'].
    + exfalso. cbn [app] in E, CH. injection E as -> E. cbn [chain] in CH. destruct CH as (B & P & CH).
      apply chain_split in CH as (m & H1 & H2). apply chain_le in H1. cbn [chain] in H2. destruct H2 as (B2 & _ & _).
      unfold contains in *. lia.
    + cbn [app] in *. injection E as -> E. cbn [chain] in CH. destruct CH as (_ & _ & CH).
      destruct (IH _ _ _ _ _ _ CH E C1 C2 L) as (mid & -> & ->). exists mid. auto.
Qed.

Definition take_slice (l : list (batch bytes)) (s : Z * Z) (n : Z) := slice_bytes (encs l) (fst s, Z.min (snd s) n).
Lemma slice_suffix a r n : take_slice (a ++ r) (zlen (encs a), zlen (encs r)) n = ztake n (encs r).
Proof.
  unfold take_slice, slice_bytes. cbn [fst snd]. rewrite encs_app, zdrop_app_exact.
  destruct (Z.le_ge_cases (zlen (encs r)) n).
  - rewrite Z.min_l by lia. rewrite (ztake_all n) by lia. apply ztake_all. lia.
  - rewrite Z.min_r by lia. reflexivity.
Qed.
Lemma ztake_ztake {A} n m (l : list A) : ztake n (ztake m l) = ztake (Z.min n m) l.
Proof.
  rewrite !ztake_firstn, firstn_firstn. f_equal. lia.
Qed.
Lemma slice_middle a mid r n : take_slice (a ++ mid ++ r) (zlen (encs a), zlen (encs mid)) n = ztake n (encs mid).
Proof.
  unfold take_slice, slice_bytes. cbn [fst snd]. rewrite !encs_app, zdrop_app_exact.
  rewrite Z.min_comm, <- ztake_ztake. rewrite ztake_app_exact. reflexivity.
Qed.

Lemma slice_all closed base end_ l ipos o a b c mx : Forall raw_batch_ok l -> chain base l end_ -> end_ - base < 2 ^ 32 ->
  ipos_ok base l ipos -> l = a ++ b :: c -> chain base a (b_base b) -> contains b o ->
  match mx with None => True | Some m => end_ <= m end ->
  records_slice closed base end_ (encs l) ipos o mx = Done (Some (zlen (encs a), zlen (encs (b :: c)))).
Proof.
  intros OK CH SP IP E CA CT M. unfold records_slice.
  rewrite (find_position base end_ l ipos o a b c) by assumption.
  assert (zlen (encs l) - zlen (encs a) = zlen (encs (b :: c))) as L by (rewrite E, encs_app, zlen_app; lia).
  destruct mx as [m|]; [|rewrite L; reflexivity].
  replace (Z.min m end_ =? end_) with true by lia. rewrite L. reflexivity.
Qed.

Lemma slice_limited closed base end_ l ipos o m a b c a' b' c' : Forall raw_batch_ok l -> chain base l end_ -> end_ - base < 2 ^ 32 ->
  zlen (encs l) < 2 ^ 32 ->
  ipos_ok base l ipos -> l = a ++ b :: c -> chain base a (b_base b) -> contains b o ->
  l = a' ++ b' :: c' -> chain base a' (b_base b') -> contains b' m -> o <= m ->
  exists mid, a' = a ++ mid /\ b :: c = mid ++ b' :: c' /\
  records_slice closed base end_ (encs l) ipos o (Some m) = Done (Some (zlen (encs a), zlen (encs mid))).
Proof.
  intros OK CH SP LL IP E CA CT E' CA' CT' Lom.
  destruct (split_order base end_ o m a b c a' b' c') as (mid & Ea & Eb); [congruence|congruence|assumption|assumption|assumption|].
  exists mid. split; [assumption|]. split; [assumption|]. unfold records_slice.
  rewrite (find_position base end_ l ipos o a b c) by assumption.
  assert (m < end_) as Hm.
  { subst l. rewrite E' in CH. apply chain_split in CH as (x & H1 & H2). cbn [chain] in H2. destruct H2 as (? & _ & H2). apply chain_le in H2. unfold contains in CT'. lia. }
  rewrite Z.min_l by lia. replace (m =? end_) with false by lia.
  rewrite (find_position base end_ l ipos m a' b' c') by assumption.
  assert (zlen (encs a') - zlen (encs a) = zlen (encs mid)) as L by (rewrite Ea, encs_app, zlen_app; lia).
  assert (zlen (encs mid) <= zlen (encs l)) as LE.
  { rewrite E', Ea, !encs_app, !zlen_app. pose proof (zlen_nonneg (encs a)). pose proof (zlen_nonneg (encs (b' :: c'))). lia. }
  rewrite L. rewrite wrap_u_id by (unfold in_u; pose proof (zlen_nonneg (encs mid)); lia).
  replace (zlen (encs l) <? zlen (encs mid)) with false by lia. rewrite andb_false_r. reflexivity.
Qed.

Lemma slice_below closed base end_ l ipos o m a b c : Forall raw_batch_ok l -> chain base l end_ -> end_ - base < 2 ^ 32 ->
  ipos_ok base l ipos -> l = a ++ b :: c -> chain base a (b_base b) -> contains b o -> m < base ->
  records_slice closed base end_ (encs l) ipos o (Some m) = Fail Other.
Proof.
  intros OK CH SP IP E CA CT M. unfold records_slice.
  rewrite (find_position base end_ l ipos o a b c) by assumption.
  pose proof (chain_le _ _ _ CH). rewrite Z.min_l by lia. replace (m =? end_) with false by lia.
  unfold find_offset_position. replace (m <? base) with true by lia. reflexivity.
Qed.

(** In a closed segment a limit before the start is an error, or nothing is
    returned. *)
Lemma slice_closed_before base end_ l ipos o m a b c : Forall raw_batch_ok l -> chain base l end_ -> end_ - base < 2 ^ 32 ->
  zlen (encs l) < 2 ^ 31 ->
  ipos_ok base l ipos -> l = a ++ b :: c -> chain base a (b_base b) -> contains b o -> m < o ->
  records_slice true base end_ (encs l) ipos o (Some m) = Fail Other \/
  records_slice true base end_ (encs l) ipos o (Some m) = Done (Some (zlen (encs a), 0)).
Proof.
  intros OK CH SP LL IP E CA CT M.
  destruct (Z.lt_ge_cases m base) as [Hb|Hb]; [left; eapply slice_below; eassumption|].
  assert (o < end_) as Ho.
  { subst l. apply chain_split in CH as (x & H1 & H2). pose proof (chain_fun _ _ _ _ H1 CA). cbn [chain] in H2. destruct H2 as (_ & _ & H2). apply chain_le in H2. unfold contains in CT. lia. }
  destruct (chain_find base l end_ m CH ltac:(lia)) as (a' & b' & c' & E' & CT' & CA').
  unfold records_slice.
  rewrite (find_position base end_ l ipos o a b c) by assumption.
  rewrite Z.min_l by lia. replace (m =? end_) with false by lia.
  rewrite (find_position base end_ l ipos m a' b' c') by assumption.
  destruct (split_order base end_ m o a' b' c' a b c) as (mid & Ea & Eb); [congruence|congruence|assumption|assumption|lia|].
  assert (zlen (encs a') - zlen (encs a) = - zlen (encs mid)) as L by (rewrite Ea, encs_app, zlen_app; lia).
  rewrite L. pose proof (zlen_nonneg (encs mid)).
  assert (zlen (encs mid) <= zlen (encs l)) as LE.
  { rewrite E, Ea, !encs_app, !zlen_app. pose proof (zlen_nonneg (encs a')). pose proof (zlen_nonneg (encs (b :: c))). lia. }
  change (2 ^ 31) with 2147483648 in *.
  destruct (Z.eq_dec (zlen (encs mid)) 0) as [Z0|NZ].
  - right. rewrite Z0. change (wrap_u 32 (- 0)) with 0. replace (zlen (encs l) <? 0) with false by lia. reflexivity.
  - left. assert (wrap_u 32 (- zlen (encs mid)) = 4294967296 - zlen (encs mid)) as ->.
    { unfold wrap_u. change (2 ^ 32) with 4294967296. symmetry. apply Z.mod_unique with (q := -1); lia. }
    replace (zlen (encs l) <? _) with true by lia. reflexivity.
Qed.

(** * Validation *)
Lemma validate_from l : forall fuel base pre s e last vpos tail,
  Forall raw_batch_ok l -> base <= s -> chain s l e ->
  (length l < fuel)%nat ->
  (tail = [] \/ exists b k, raw_batch_ok b /\ 0 < k < zlen (renc b) /\ tail = ztake k (renc b)) ->
  validate fuel base (pre ++ encs l ++ tail) (zlen pre) last vpos =
  (match l with [] => last | _ => e - 1 end, match l with [] => vpos | _ => zlen pre + zlen (encs l) end,
   match tail with [] => VOk | _ => VDecoding end).
Proof.
  induction l as [|b l IH]; intros fuel base pre s e last vpos tail OK Hs CH F T; (destruct fuel as [|f]; [cbn [length] in F; lia|]).
  - cbn [validate encs flat_map app]. destruct T as [->|(b & k & OKb & Hk & ->)].
    + rewrite app_nil_r, read_from_end. reflexivity.
    + rewrite read_from_cut by assumption.
      destruct (nonempty_cons (ztake k (renc b))) as (x & t & ->); [rewrite zlen_ztake; lia|]. reflexivity.
  - apply Forall_cons_iff in OK as [OKb OK]. cbn [chain] in CH. destruct CH as (B & P & CH).
    cbn [validate]. rewrite encs_cons, <- app_assoc. rewrite read_from_whole by assumption.
    replace (b_base b <? base) with false by lia. rewrite stored_delta, last_offset_records by assumption.
    rewrite app_assoc, <- zlen_app.
    rewrite (IH f base (pre ++ renc b) (s + records_len b) e); [|assumption|lia|assumption|cbn [length] in F; lia|assumption].
    rewrite !zlen_app. destruct l as [|b2 l].
    + cbn [chain] in CH. change (encs []) with (@nil Z). rewrite zlen_nil. f_equal. f_equal; lia.
    + f_equal. f_equal. lia.
Qed.

Lemma validate_log_ok base l e tail : Forall raw_batch_ok l -> chain base l e -> 
  (tail = [] \/ exists b k, raw_batch_ok b /\ 0 < k < zlen (renc b) /\ tail = ztake k (renc b)) ->
  validate_log base (encs l ++ tail) =
  (match l with [] => -1 | _ => e - 1 end, zlen (encs l), match tail with [] => VOk | _ => VDecoding end).
Proof.
  intros OK CH T. unfold validate_log.
  pose proof (validate_from l (S (length (encs l ++ tail))) base [] base e (-1) 0 tail OK ltac:(lia) CH) as V.
  cbn [app] in V. change (zlen (@nil Z)) with 0 in V. rewrite V; [|rewrite app_length; pose proof (encs_length_ge l); unfold zlen in *; lia|assumption].
  destruct l; [reflexivity|]. f_equal.
Qed.
Lemma valid_leo_ok base (l : list (batch bytes)) e : 0 <= base -> chain base l e -> valid_leo base (match l with [] => -1 | _ => e - 1 end) = e.
Proof.
  intros Hb CH. unfold valid_leo. destruct l as [|b l].
  - cbn [chain] in CH. subst. reflexivity.
  - pose proof (chain_lt _ _ _ CH ltac:(congruence)). replace (e - 1 =? -1) with false by lia. lia.
Qed.
Lemma VTail tail : (match tail with [] => VOk | _ => VDecoding end = VOk /\ tail = @nil Z) \/ (exists x t, tail = x :: t).
Proof. destruct tail; eauto. Qed.

(** * Segment invariants *)
Definition seg_inv (c : config) (base end_ : Z) (log : bytes) (es : list entry) (l : list (batch bytes)) : Prop :=
  log = encs l /\ chain base l end_ /\ Forall raw_batch_ok l /\ Forall (entry_ok base l) es
  /\ zlen log <= c_seg_max c /\ end_ - base < 2 ^ 31 /\ 0 <= base /\ end_ < 2 ^ 63.
Definition idx_room (c : config) (m : mseg) : Prop :=
  0 <= m_acc m /\ m_slot m * c_interval c + m_acc m <= zlen (m_log m)
  /\ zlen (m_ifile m) * c_interval c <= zlen (m_log m).
Definition m_inv (c : config) (m : mseg) (l : list (batch bytes)) : Prop :=
  seg_inv c (m_base m) (m_end m) (m_log m) (m_ifile m) l
  /\ 0 <= m_slot m <= zlen (m_ifile m) /\ (m_last m = 0 \/ m_last m < m_end m - m_base m)
  /\ 0 <= m_last m /\ idx_room c m.
Definition g_inv (c : config) (g : rseg) (l : list (batch bytes)) : Prop :=
  seg_inv c (g_base g) (g_end g) (g_log g) (g_idx g) l /\ l <> [].

Lemma entry_ok_app base l l' e : entry_ok base l e -> entry_ok base (l ++ l') e.
Proof. intros (p & q & -> & H). exists p, (q ++ l'). rewrite app_assoc. auto. Qed.

Lemma m_ipos_ok c m l : m_inv c m l -> ipos_ok (m_base m) l (m_ipos m).
Proof.
  intros ((_ & _ & _ & E & _) & _). unfold m_ipos. destruct (m_slot m =? 0).
  - intros d Hd. exists [], l, 0. split; [reflexivity|]. split; [reflexivity|]. cbn [chain]. lia.
  - apply ipos_lookup. rewrite Forall_forall in *. intros x Hx. apply E.
    rewrite <- (ztake_zdrop (m_slot m) (m_ifile m)). apply in_or_app. left. assumption.
Qed.
Lemma g_ipos_ok c g l : g_inv c g l -> ipos_ok (g_base g) l (g_ipos g).
Proof. intros ((_ & _ & _ & E & _) & _). apply ipos_lookup. assumption. Qed.

(** Appending a batch to the active segment *)
Lemma with_base_ok (b : batch bytes) o : raw_batch_ok b -> 0 <= o < 2 ^ 63 -> raw_batch_ok (with_base b o).
Proof.
  intros (_ & H2 & H3 & H4 & H5) Ho. split; [unfold with_base; cbn; unfold in_s; change (2 ^ (64 - 1)) with (2 ^ 63); lia|].
  split; [assumption|]. split; [assumption|]. split; assumption.
Qed.
Lemma with_base_len b o : records_len (with_base b o) = records_len b.
Proof. reflexivity. Qed.
Lemma records_len_nonneg (b : batch bytes) : 0 <= records_len b.
Proof. unfold records_len. destruct (_ <? 0) eqn:E; lia. Qed.

Lemma write_index_fields c m d p s m' : write_index c m d p s = Some m' ->
  m_base m' = m_base m /\ m_end m' = m_end m /\ m_log m' = m_log m /\ m_last m' = d /\ m_mtime m' = m_mtime m.
Proof.
  unfold write_index. destruct (if 0 <? d then _ else _); [|discriminate].
  destruct (m_acc m <? c_interval c); [|destruct (m_slot m <? c_entries c)]; intros H; injection H as <-; cbn; auto.
Qed.
Lemma write_index_entries c m d p s m' l : write_index c m d p s = Some m' ->
  0 <= m_slot m <= zlen (m_ifile m) -> Forall (entry_ok (m_base m) l) (m_ifile m) -> entry_ok (m_base m) l (d, p) ->
  Forall (entry_ok (m_base m) l) (m_ifile m') /\ 0 <= m_slot m' <= zlen (m_ifile m').
Proof.
  unfold write_index. destruct (if 0 <? d then _ else _); [|discriminate].
  destruct (m_acc m <? c_interval c); [|destruct (m_slot m <? c_entries c)]; intros H HS HE HN; injection H as <-; cbn [m_ifile m_slot]; try (split; assumption).
  split.
  - rewrite Forall_forall in *. intros x Hx. apply in_app_or in Hx as [Hx|[<-|Hx]]; [|assumption|].
    + apply HE. rewrite <- (ztake_zdrop (m_slot m) (m_ifile m)). apply in_or_app. left. assumption.
    + apply HE. rewrite <- (ztake_zdrop (m_slot m + 1) (m_ifile m)). apply in_or_app. right. assumption.
  - rewrite zlen_app, zlen_cons, zlen_ztake, zlen_zdrop. lia.
Qed.
Lemma wrap_u_le a : 0 <= a -> 0 <= wrap_u 32 a <= a.
Proof.
  intros H. unfold wrap_u. pose proof (Z.mod_pos_bound a (2 ^ 32) ltac:(reflexivity)).
  pose proof (Z.mod_le a (2 ^ 32) H ltac:(reflexivity)). lia.
Qed.
Lemma write_index_room c m d p s m' : write_index c m d p (wrap_u 32 s) = Some m' -> 0 <= s -> 0 <= c_interval c ->
  0 <= m_slot m <= zlen (m_ifile m) ->
  0 <= m_acc m -> m_slot m * c_interval c + m_acc m + s <= zlen (m_log m) ->
  zlen (m_ifile m) * c_interval c <= zlen (m_log m) -> idx_room c m'.
Proof.
  unfold write_index. destruct (if 0 <? d then _ else _); [|discriminate].
  pose proof (wrap_u_le s) as W1.
  destruct (m_acc m <? c_interval c) eqn:C; [|destruct (m_slot m <? c_entries c)]; intros H HS HI SL A B Z; injection H as <-;
    unfold idx_room; cbn [m_acc m_slot m_log m_ifile].
  - pose proof (wrap_u_le (m_acc m + wrap_u 32 s)). lia.
  - rewrite zlen_app, zlen_cons, zlen_ztake, zlen_zdrop. split; [lia|]. split; [lia|].
    assert (Z.min (Z.max 0 (m_slot m)) (zlen (m_ifile m)) + (1 + Z.max 0 (zlen (m_ifile m) - Z.max 0 (m_slot m + 1))) = Z.max (zlen (m_ifile m)) (m_slot m + 1)) as M by lia.
    rewrite ?M. first [lia | match goal with |- ?x * _ <= _ => replace x with (Z.max (zlen (m_ifile m)) (m_slot m + 1)) by lia end;
      destruct (Z.max_spec (zlen (m_ifile m)) (m_slot m + 1)) as [[_ ->]|[_ ->]]; lia].
  - lia.
Qed.

Lemma append_added c now m b m' l : config_ok c -> m_inv c m l -> raw_batch_ok b ->
  m_end m + records_len b - m_base m < 2 ^ 31 -> m_end m + records_len b < 2 ^ 63 ->
  append_batch c now m b = (m', Added) ->
  m_inv c m' (l ++ [with_base b (m_end m)]) /\ m_end m' = m_end m + records_len b /\ m_base m' = m_base m /\ 0 < records_len b.
Proof.
  intros CO ((EL & CH & OK & EN & SZ & SP & B0 & E63) & SL & LA & L0 & IR) HB R1 R2. unfold append_batch.
  destruct (records_len b =? 0) eqn:Z0; [discriminate|].
  destruct (b_base (with_base b (m_end m)) <? m_base m) eqn:BB; [discriminate|].
  destruct (c_seg_max c <? _) eqn:FULL; [discriminate|].
  destruct (zlen (renc _) =? batch_size raw_codec _) eqn:SE; [|discriminate].
  destruct (write_index c _ _ _ _) as [m2|] eqn:WI; [|discriminate].
  intros H. injection H as <-. pose proof (records_len_nonneg b) as RN.
  pose proof (write_index_fields _ _ _ _ _ _ WI) as (F1 & F2 & F3 & F4 & F5). cbn [m_base m_end m_log] in *.
  pose proof (chain_le _ _ _ CH) as LE. change (2 ^ 31) with 2147483648 in *. 
  assert (wrap_u 32 (m_end m - m_base m) = m_end m - m_base m) as WD.
  { apply wrap_u_id. unfold in_u. change (2 ^ 32) with 4294967296. lia. }
  assert (get_last_offset (with_base b (m_end m)) + 1 = m_end m + records_len b) as GL.
  { unfold get_last_offset. cbn [b_base with_base]. change (b_hdr (with_base b (m_end m))) with (b_hdr b). rewrite (last_offset_records b) by lia. lia. }
  assert (raw_batch_ok (with_base b (m_end m))) as OKB by (apply with_base_ok; [assumption|lia]).
  assert (zlen (m_log m ++ renc (with_base b (m_end m))) <= c_seg_max c) as SZ2.
  { rewrite zlen_app. set (sz := batch_size raw_codec _) in *. assert (zlen (renc (with_base b (m_end m))) = sz) as -> by lia.
    destruct CO as ((C1 & C2) & _). change (2 ^ 31) with 2147483648 in *.
    assert (0 <= sz < 2147483648) as SR.
    { unfold sz, batch_size, BATCH_FILE_HEADER_SIZE, BATCH_PREAMBLE_SIZE, BATCH_HEADER_SIZE. destruct HB as (_ & _ & _ & _ & HB). cbn [c_size raw_codec]. change (b_recs (with_base b (m_end m))) with (b_recs b).
      pose proof (zlen_nonneg (b_recs b)). change (2 ^ 31) with 2147483648 in *. lia. }
    clearbody sz. pose proof (zlen_nonneg (m_log m)).
    assert (wrap_u 32 sz = sz) as W1 by (apply wrap_u_id; unfold in_u; change (2 ^ 32) with 4294967296; lia). rewrite W1 in FULL.
    assert (wrap_u 32 (sz + zlen (m_log m)) = sz + zlen (m_log m)) as W2 by (apply wrap_u_id; unfold in_u; change (2 ^ 32) with 4294967296; lia).
    rewrite W2 in FULL. lia. }
  assert (entry_ok (m_base m) (l ++ [with_base b (m_end m)]) (m_end m - m_base m, zlen (m_log m))) as EO.
  { exists l, [with_base b (m_end m)]. split; [reflexivity|]. cbn [fst snd]. split; [rewrite EL; reflexivity|].
    replace (m_base m + (m_end m - m_base m)) with (m_end m) by lia. assumption. }
  rewrite WD in *.
  pose proof (write_index_entries c _ _ _ _ _ (l ++ [with_base b (m_end m)]) WI SL) as WE. cbn [m_base m_ifile m_slot] in WE.
  destruct WE as (EN2 & SL2).
  { rewrite Forall_forall in *. intros x Hx. apply entry_ok_app. apply EN. assumption. }
  { exact EO. }
  split; [|rewrite GL; cbn [m_end m_base]; lia].
  unfold m_inv, seg_inv. cbn [m_base m_end m_log m_ifile m_slot m_last]. rewrite GL, F1, F3, F4.
  split.
  - split; [rewrite EL, encs_app; cbn [encs flat_map]; rewrite app_nil_r; reflexivity|].
    split; [eapply chain_app; [exact CH|]; cbn [chain]; rewrite with_base_len; split; [reflexivity|]; split; [lia|reflexivity]|].
    split; [apply Forall_app; split; [assumption|]; constructor; [assumption|constructor]|].
    split; [assumption|]. split; [assumption|]. lia.
  - split; [assumption|]. split; [lia|]. split; [lia|].
    unfold idx_room in *. cbn [m_acc m_slot m_log m_ifile] in *. rewrite <- F3.
    destruct IR as (A0 & A1 & A2). pose proof (zlen_nonneg (renc (with_base b (m_end m)))) as ZN.
    apply (write_index_room _ _ _ _ _ _ WI); cbn [m_acc m_slot m_log m_ifile]; try assumption; try (rewrite zlen_app; lia); [lia|].
    destruct CO as (_ & ? & _). assumption.
Qed.

(** No assertion of the index fails. *)
Lemma append_not_full_panics c now m b m' l : config_ok c -> m_inv c m l -> raw_batch_ok b ->
  m_end m + records_len b - m_base m < 2 ^ 31 ->
  append_batch c now m b = (m', Failed Panicked) -> m' = m /\ has_schema (b_hdr b) = true.
Proof.
  intros CO ((EL & CH & OK & EN & SZ & SP & B0 & E63) & SL & LA & L0) HB R1. unfold append_batch.
  destruct (records_len b =? 0) eqn:Z0; [discriminate|].
  destruct (b_base (with_base b (m_end m)) <? m_base m) eqn:BB; [discriminate|].
  destruct (c_seg_max c <? _) eqn:FULL; [discriminate|].
  destruct (zlen (renc _) =? batch_size raw_codec _) eqn:SE.
  - destruct (write_index c _ _ _ _) as [m2|] eqn:WI; [discriminate|]. intros _. exfalso.
    pose proof (chain_le _ _ _ CH) as LE. change (2 ^ 31) with 2147483648 in *.
    rewrite wrap_u_id in WI by (unfold in_u; change (2 ^ 32) with 4294967296; lia).
    unfold write_index in WI. cbn [m_last] in WI.
    destruct (if 0 <? m_end m - m_base m then m_last m <? m_end m - m_base m else m_last m =? 0) eqn:CND.
    + destruct (_ <? c_interval c); [discriminate|]. destruct (_ <? c_entries c); discriminate.
    + destruct (0 <? m_end m - m_base m) eqn:P; lia.
  - intros H. injection H as <-. split; [reflexivity|].
    destruct (has_schema (b_hdr b)) eqn:HS; [reflexivity|]. exfalso.
    assert (zlen (renc (with_base b (m_end m))) = batch_size raw_codec (with_base b (m_end m))) as X; [|lia].
    unfold renc. rewrite batch_enc_front, zlen_app, front_zlen. unfold front_len. rewrite schema_zlen.
    change (has_schema (b_hdr (with_base b (m_end m)))) with (has_schema (b_hdr b)). rewrite HS.
    unfold batch_size. cbn [c_enc c_size raw_codec]. change BATCH_FILE_HEADER_SIZE with 57. lia.
Qed.

Lemma append_failed c now m b m' e : append_batch c now m b = (m', Failed e) -> e <> Panicked -> m' = m.
Proof.
  unfold append_batch. destruct (records_len b =? 0); [intros H; injection H; congruence|].
  destruct (_ <? m_base m); [intros H; injection H; congruence|]. destruct (c_seg_max c <? _); [discriminate|].
  destruct (_ =? _); [|intros H; injection H; congruence].
  destruct (write_index _ _ _ _ _); [discriminate|]. intros H; injection H. congruence.
Qed.
Lemma append_full c now m b m' : append_batch c now m b = (m', Full) -> m' = m /\ 0 < records_len b.
Proof.
  unfold append_batch. pose proof (records_len_nonneg b). destruct (records_len b =? 0) eqn:Z0; [discriminate|].
  destruct (_ <? m_base m); [discriminate|]. destruct (c_seg_max c <? _); [intros H1; injection H1; split; [congruence|lia]|].
  match goal with |- (let size := _ in if ?x then _ else _) = _ -> _ => destruct x | |- (if ?x then _ else _) = _ -> _ => destruct x end; [|intros H1; inversion H1]. destruct (write_index _ _ _ _ _); intros H1; inversion H1.
Qed.

Lemma batch_size_range (b : batch bytes) : raw_batch_ok b -> 57 <= batch_size raw_codec b < 2 ^ 31.
Proof.
  intros (_ & _ & _ & _ & H). unfold batch_size. change BATCH_FILE_HEADER_SIZE with 57. cbn [c_size raw_codec].
  pose proof (zlen_nonneg (b_recs b)). change (2 ^ 31) with 2147483648 in *. lia.
Qed.
(** A batch within the limit is full only for a segment that has something. *)
Lemma full_nonempty c now m b l m' : m_inv c m l -> raw_batch_ok b -> batch_size raw_codec b <= c_seg_max c ->
  append_batch c now m b = (m', Full) -> l <> [].
Proof.
  intros ((EL & _) & _) HB LIM H ->. change (encs []) with (@nil Z) in EL. revert H. unfold append_batch.
  destruct (records_len b =? 0) eqn:Z0; [discriminate|].
  destruct (_ <? m_base m); [discriminate|].
  rewrite EL. change (zlen (@nil Z)) with 0. rewrite Z.add_0_r.
  change (batch_size raw_codec (with_base b (m_end m))) with (batch_size raw_codec b).
  pose proof (batch_size_range b HB). change (2 ^ 31) with 2147483648 in *.
  assert (wrap_u 32 (batch_size raw_codec b) = batch_size raw_codec b) as W by (apply wrap_u_id; unfold in_u; change (2 ^ 32) with 4294967296; lia).
  rewrite !W. replace (c_seg_max c <? batch_size raw_codec b) with false by lia.
  destruct (zlen (renc _) =? _); [|intros H1; inversion H1]. destruct (write_index _ _ _ _ _); intros H1; inversion H1.
Qed.

Lemma new_inv c base now : 0 < c_seg_max c -> 0 <= base < 2 ^ 63 -> m_inv c (new_segment base now) [].
Proof.
  intros C B. unfold m_inv, seg_inv, new_segment. unfold idx_room. cbn [m_base m_end m_log m_ifile m_slot m_last m_acc].
  change (zlen (@nil Z)) with 0. change (zlen (@nil entry)) with 0.
  split; [|lia]. split; [reflexivity|]. split; [reflexivity|]. split; [constructor|]. split; [constructor|]. lia.
Qed.
Lemma close_inv c m l : m_inv c m l -> l <> [] -> g_inv c (close_segment m) l.
Proof.
  intros ((EL & CH & OK & EN & SZ & SP & B0 & E63) & SL & LA & L0) NE. split; [|assumption].
  unfold close_segment, seg_inv. cbn [g_base g_end g_log g_idx].
  split; [assumption|]. split; [assumption|]. split; [assumption|]. split; [|lia].
  assert (Forall (entry_ok (m_base m) l) (ztake (m_slot m) (m_ifile m))) as F.
  { rewrite Forall_forall in *. intros x Hx. apply EN. rewrite <- (ztake_zdrop (m_slot m) (m_ifile m)). apply in_or_app. left. assumption. }
  unfold closed_index. destruct (ztake (m_slot m) (m_ifile m)); [|assumption].
  constructor; [|constructor]. exists [], l. split; [reflexivity|]. cbn [fst snd]. split; [reflexivity|]. cbn [chain]. lia.
Qed.
