(** Proofs about look-back. *)
From Verif Require Import StorageSpec RecordSpec RecordProofs StorageProofs ReplicaProofs StorageClaims ClusterProofs ReplicationClaims ListFacts.
From Verif Require Import StreamModel StreamSpec StreamProofs StreamClaims LookbackModel LookbackSpec.

(** * Lists *)
Fixpoint consecutive (a : Z) (l : list (Z * Z * rec)) : Prop :=
  match l with [] => True | x :: t => offset_of x = a /\ consecutive (a + 1) t end.
Lemma consecutive_app a l l' : consecutive a l -> consecutive (a + zlen l) l' -> consecutive a (l ++ l').
Proof.
  revert a. induction l as [|x l IH]; intros a C1 C2; cbn [app].
  - unfold zlen in C2. cbn in C2. rewrite Z.add_0_r in C2. exact C2.
  - destruct C1 as (E & C1). split; [exact E|]. apply IH; [exact C1|]. unfold zlen in *. cbn [length] in C2. replace (a + 1 + Z.of_nat (length l)) with (a + Z.of_nat (S (length l))) by lia. exact C2.
Qed.
Lemma consecutive_filter l : forall a o, consecutive a l -> filter (fun x => o <=? offset_of x) l = skipn (Z.to_nat (o - a)) l.
Proof.
  induction l as [|x l IH]; intros a o C; [rewrite skipn_nil; reflexivity|]. destruct C as (E & C). cbn [filter]. rewrite E.
  destruct (o <=? a) eqn:T.
  - replace (Z.to_nat (o - a)) with 0%nat by lia. cbn [skipn]. f_equal. rewrite (IH (a + 1) o C). replace (Z.to_nat (o - (a + 1))) with 0%nat by lia. reflexivity.
  - rewrite (IH (a + 1) o C). replace (Z.to_nat (o - a)) with (S (Z.to_nat (o - (a + 1)))) by lia. reflexivity.
Qed.
Lemma consecutive_in l : forall a x, consecutive a l -> In x l -> a <= offset_of x < a + zlen l.
Proof.
  induction l as [|y l IH]; intros a x C IN; [contradiction|]. destruct C as (E & C). unfold zlen. cbn [length]. destruct IN as [->|IN]; [lia|].
  apply (IH _ _ C) in IN. unfold zlen in IN. lia.
Qed.
Lemma filter_none {A} (f : A -> bool) l : (forall x, In x l -> f x = false) -> filter f l = [].
Proof. induction l as [|x l IH]; intros F; [reflexivity|]. cbn [filter]. rewrite (F x) by (left; reflexivity). apply IH. intros y I. apply F. right. exact I. Qed.
Lemma filter_every {A} (f : A -> bool) l : (forall x, In x l -> f x = true) -> filter f l = l.
Proof. induction l as [|x l IH]; intros F; [reflexivity|]. cbn [filter]. rewrite (F x) by (left; reflexivity). f_equal. apply IH. intros y I. apply F. right. exact I. Qed.
Lemma filter_same {A} (f g : A -> bool) l : (forall x, In x l -> f x = g x) -> filter f l = filter g l.
Proof. induction l as [|x l IH]; intros F; [reflexivity|]. cbn [filter]. rewrite (F x) by (left; reflexivity). rewrite IH; [reflexivity|]. intros y I. apply F. right. exact I. Qed.

Lemma part_refl {A} (l : list A) : part_of l l.
Proof. induction l; constructor; assumption. Qed.
Lemma part_pre {A} (p a b : list A) : part_of a b -> part_of a (p ++ b).
Proof. induction p; intros P; [exact P|]. cbn [app]. apply part_skip. auto. Qed.
Lemma part_flat {A B} (f : A -> list B) a b : part_of a b -> part_of (flat_map f a) (flat_map f b).
Proof.
  induction 1 as [|x a b P IH|x a b P IH]; cbn [flat_map]; [constructor| |apply part_pre; exact IH].
  induction (f x) as [|y l IHl]; [exact IH|]. cbn [app]. apply part_keep. exact IHl.
Qed.
Lemma part_filter {A} (f : A -> bool) a b : part_of a b -> part_of (filter f a) (filter f b).
Proof. induction 1; cbn [filter]; [constructor| |]; destruct (f x); try constructor; assumption. Qed.
Lemma part_in {A} (a b : list A) x : part_of a b -> In x a -> In x b.
Proof. induction 1; intros I; [contradiction| |]; cbn [In] in *; tauto. Qed.

(** * Records of batches *)
Definition past_of (x : Z * Z * rec) : past := mkPast (offset_of x) (time_of x) (snd x).
Lemma numbered_stamps b m : to_memory b = Ok m -> positions 0 (b_recs m) ->
  map (fun r => mkPast (b_base b + r_off r) (h_first_ts (b_hdr b) + r_ts r) r) (b_recs m) = map past_of (stamped b).
Proof.
  intros T. unfold stamped, records_of. rewrite T. rewrite map_map. generalize (b_recs m) as l.
  assert (forall l i, positions i l -> map (fun r => mkPast (b_base b + r_off r) (h_first_ts (b_hdr b) + r_ts r) r) l
    = map (fun x => past_of (stamp b x)) (number_records (b_base b + i) l)) as G.
  { induction l as [|r l IH]; intros i P; [reflexivity|]. destruct P as (E & P). cbn [map number_records]. rewrite (IH _ P). rewrite E.
    replace (b_base b + i + 1) with (b_base b + (i + 1)) by lia. reflexivity. }
  intros l P. rewrite (G l 0 P). rewrite Z.add_0_r. reflexivity.
Qed.
Lemma items_numbered B : Forall numbered B -> items_of (map (received raw_codec) B) = Done (map past_of (flat_map stamped B)).
Proof.
  induction B as [|b B IH]; intros F; [reflexivity|]. inversion F as [|? ? (m & T & P) F']; subst. cbn [map items_of flat_map].
  unfold batch_items. destruct (received_memory b m T) as (m' & T' & R & _). rewrite T', R, (IH F'). rewrite map_app.
  change (b_base (received raw_codec b)) with (b_base b). change (h_first_ts (b_hdr (received raw_codec b))) with (h_first_ts (b_hdr b)).
  rewrite (numbered_stamps b m T P). reflexivity.
Qed.
Lemma keep_past f l : keep_items f (Done (map past_of l)) = Done (map past_of (filter (fun x => f (past_of x)) l)).
Proof. unfold keep_items. f_equal. induction l as [|x l IH]; [reflexivity|]. cbn [map filter]. destruct (f (past_of x)); cbn [map]; rewrite IH; reflexivity. Qed.
Lemma past_recs l : map e_rec (map past_of l) = map snd l.
Proof. rewrite map_map. apply map_ext. reflexivity. Qed.

Lemma number_records_len l : forall o, zlen (number_records o l) = zlen l.
Proof. induction l as [|r l IH]; intros o; [reflexivity|]. cbn [number_records]. unfold zlen in *. cbn [length]. rewrite !Nat2Z.inj_succ. rewrite IH. reflexivity. Qed.
Lemma stamped_len b : honest b -> zlen (stamped b) = records_len b.
Proof. intros (m & T & E). unfold stamped, records_of. rewrite T. unfold zlen. rewrite map_length. fold (zlen (number_records (b_base b) (b_recs m))). rewrite number_records_len. exact E. Qed.
Lemma stamped_consecutive b : consecutive (b_base b) (stamped b).
Proof.
  unfold stamped, records_of. destruct (to_memory b) as [m|]; [|exact I]. generalize (b_base b) as o. induction (b_recs m) as [|r l IH]; intros o; [exact I|].
  cbn [number_records map consecutive]. split; [reflexivity|apply IH].
Qed.
Lemma chain_consecutive B : forall a e, chain a B e -> Forall honest B -> consecutive a (flat_map stamped B) /\ zlen (flat_map stamped B) = e - a.
Proof.
  induction B as [|b B IH]; intros a e CH F; cbn [chain flat_map] in *; [subst; split; [exact I|unfold zlen; cbn; lia]|].
  destruct CH as (E & P & CH). inversion F; subst. destruct (IH _ _ CH ltac:(assumption)) as (C & Z). pose proof (stamped_len b ltac:(assumption)) as SL.
  split; [apply consecutive_app; [apply stamped_consecutive|rewrite SL; exact C]|]. rewrite zlen_app. lia.
Qed.

(** * The committed part of the log *)
Lemma kept_split c r H : config_ok c -> logged c r H -> exists L R e,
  inv c r L /\ L = kept r H ++ R /\ chain (get_log_start r) (kept r H) e /\ chain e R (get_leo r)
  /\ (kept r H <> [] -> e <= get_hw r) /\ (forall b t, R = b :: t -> get_hw r < batch_end b) /\ Forall honest L /\ 0 <= get_log_start r
  /\ incl L H /\ get_hw r <= get_leo r.
Proof.
  intros CO (old & L & -> & I & C0 & HW & HO). destruct (inv_stores _ _ _ I) as ((_ & CH) & _).
  assert (kept r (old ++ L) = filter (fun b => batch_end b <=? get_hw r) L) as K.
  { unfold kept. rewrite filter_app. rewrite filter_none.
    - cbn [app]. apply filter_same. intros b IN. pose proof (chain_in _ _ _ _ CH IN). replace (get_log_start r <=? b_base b) with true by lia. reflexivity.
    - intros b IN. pose proof (chain_in _ _ _ _ C0 IN). replace (get_log_start r <=? b_base b) with false by lia. reflexivity. }
  rewrite K. exists L. apply Forall_app in HO as (_ & HO).
  assert (forall L a, chain a L (get_leo r) -> exists R e, L = filter (fun b => batch_end b <=? get_hw r) L ++ R
    /\ chain a (filter (fun b => batch_end b <=? get_hw r) L) e /\ chain e R (get_leo r)
    /\ (filter (fun b => batch_end b <=? get_hw r) L <> [] -> e <= get_hw r) /\ (forall b t, R = b :: t -> get_hw r < batch_end b)) as G.
  { clear. induction L as [|b L IH]; intros a CH; cbn [chain] in CH.
    - subst a. exists [], (get_leo r). cbn [filter app chain]. split; [reflexivity|]. split; [reflexivity|]. split; [reflexivity|]. split; [congruence|discriminate].
    - destruct CH as (E & P & CH). cbn [filter]. destruct (batch_end b <=? get_hw r) eqn:T.
      + destruct (IH _ CH) as (R & e & E1 & C1 & C2 & LE & HD). exists R, e. cbn [app chain]. split; [f_equal; exact E1|]. split; [auto|]. split; [exact C2|]. split; [|exact HD].
        intros _. destruct (filter (fun b0 => batch_end b0 <=? get_hw r) L) eqn:F; [cbn in C1; unfold batch_end in T; lia|apply LE; discriminate].
      + exists (b :: L), a. rewrite filter_none.
        * cbn [app chain]. split; [reflexivity|]. split; [reflexivity|]. split; [auto|]. split; [congruence|]. intros b' t [= <- <-]. lia.
        * intros b' IN. pose proof (chain_in _ _ _ _ CH IN). unfold batch_end in *. lia. }
  destruct (G L _ CH) as (R & e & E1 & C1 & C2 & LE & HD). exists R, e. split; [exact I|]. split; [exact E1|]. split; [exact C1|]. split; [exact C2|]. split; [exact LE|]. split; [exact HD|].
  split; [exact HO|]. split; [apply chain_le in C0; exact C0|]. split; [apply incl_appr, incl_refl|exact HW].
Qed.

(** Two ways to split a log. *)
Lemma split_inside (X X' pre Y : list (batch bytes)) a b x p : X ++ X' = pre ++ b :: Y -> chain a X x -> chain a pre p -> p < x -> exists Z, X = pre ++ b :: Z.
Proof.
  intros E C1 C2 LT. apply app_eq_app in E as (l & [(-> & E)|(-> & E)]).
  - destruct l as [|b' l]; [rewrite app_nil_r in C1; pose proof (chain_fun _ _ _ _ C1 C2); lia|]. inversion E; subst. exists l. reflexivity.
  - apply chain_split in C2 as (y & C3 & C4). pose proof (chain_fun _ _ _ _ C1 C3). apply chain_le in C4. lia.
Qed.

(** What a committed read at [o] returns. *)
Lemma read_at c r H L o : config_ok c -> logged c r H -> inv c r L -> get_log_start r <= o <= get_hw r -> o < get_leo r ->
  exists pre sel rest p q sl, L = pre ++ sel ++ rest /\ chain (get_log_start r) pre p /\ chain p sel q /\ chain q rest (get_leo r) /\ q <= get_hw r
    /\ (exists b t, sel ++ rest = b :: t /\ contains b o)
    /\ read_partition_slice r o u32_max ReadCommitted = Done sl /\ sl_bytes sl = Some (encs sel) /\ receive (encs sel) = map (received raw_codec) sel
    /\ ((sel <> [] /\ (rest = [] \/ In q (seg_bases r))) \/ exists b t, rest = b :: t /\ contains b (get_hw r)).
Proof.
  intros CO LG I Ho Hl. destruct (read_committed_full c r L o u32_max CO I ltac:(lia) ltac:(lia)) as (pre & sel & rest & p & q & E & C1 & C2 & C3 & Q & FI & RD & D & SZ & _).
  assert (c_seg_max c < u32_max) as SM by (destruct CO as ((_ & X) & _); unfold u32_max; change (2^31) with 2147483648 in X; lia).
  assert (Forall raw_batch_ok sel) as OKs by (destruct (inv_stores _ _ _ I) as (_ & OKL); rewrite E, !Forall_app in OKL; tauto).
  exists pre, sel, rest, p, q. eexists. split; [exact E|]. split; [exact C1|]. split; [exact C2|]. split; [exact C3|]. split; [exact Q|]. split; [exact FI|].
  split; [exact RD|]. split; [cbn [sl_bytes]; f_equal; apply ztake_all; fold (encs sel); lia|]. split; [|exact D].
  eapply receive_encs; [exact OKs|exact SZ|destruct CO; lia].
Qed.

(** * The last records *)
Lemma clamp_ok r n : 0 <= get_log_start r <= get_hw r -> 0 <= n -> clamp (Z.max (get_hw r - n) 0) (get_log_start r) (get_hw r) = Done (Z.max (get_log_start r) (get_hw r - n)).
Proof.
  intros S N. unfold clamp. replace (get_hw r <? get_log_start r) with false by lia. f_equal.
  destruct (Z.max (get_hw r - n) 0 <? get_log_start r) eqn:A; [lia|]. destruct (get_hw r <? Z.max (get_hw r - n) 0) eqn:B; lia.
Qed.
(** what it should be *)
Definition want (r : replica) (H : list (batch bytes)) (n : Z) : list (Z * Z * rec) := filter (fun x => get_hw r - n <=? offset_of x) (committed r H).

Lemma last_gives c r H n : config_ok c -> logged c r H -> Forall numbered H -> get_log_start r <= get_hw r -> 0 <= n < 2 ^ 63 ->
  exists k, lookback_last r n = Done (map past_of (firstn k (want r H n))) /\ (want r H n <> [] -> k <> 0%nat)
    /\ (one_segment r (Z.max (get_log_start r) (get_hw r - n)) -> (length (want r H n) <= k)%nat).
Proof.
  intros CO LG NU SH N. destruct (kept_split _ _ _ CO LG) as (L & R & e & IL & EL & CK & CR & LE & HD & HO & S0 & INC & HW).
  set (pos := Z.max (get_log_start r) (get_hw r - n)).
  assert (Forall numbered L) as NL by (rewrite Forall_forall in *; intros b IN; apply NU, INC, IN).
  assert (Forall honest (kept r H)) as HK by (rewrite EL in HO; apply Forall_app in HO; tauto).
  destruct (chain_consecutive _ _ _ CK HK) as (CC & LC).
  assert (want r H n = filter (fun x => pos <=? offset_of x) (committed r H)) as EW.
  { apply filter_same. intros x IN. pose proof (consecutive_in _ _ _ CC IN). unfold pos. destruct (get_hw r - n <=? offset_of x) eqn:A; lia. }
  unfold lookback_last. replace (2 ^ 63 <=? n) with false by lia. rewrite (clamp_ok r n) by lia. fold pos.
  destruct (Z.eq_dec pos (get_leo r)) as [EP|NP].
  - rewrite EP, (read_at_end _ _ _ u32_max ReadCommitted IL). cbn [sl_bytes].
    assert (want r H n = []) as W.
    { rewrite EW. apply filter_none. intros x IN. pose proof (consecutive_in _ _ _ CC IN). pose proof (chain_le _ _ _ CR). unfold committed in IN. lia. }
    exists 0%nat. rewrite W. split; [reflexivity|]. split; [congruence|]. intros _. cbn. lia.
  - assert (get_log_start r <= pos <= get_hw r) as PR by (unfold pos; lia).
    destruct (read_at c r H L pos CO LG IL PR ltac:(lia)) as (pre & sel & rest & p & q & sl & E & C1 & C2 & C3 & Q & (b0 & t0 & E0 & CT) & RD & SB & RC & D).
    rewrite RD, SB, RC.
    assert (Forall numbered sel) as NS by (rewrite E, !Forall_app in NL; tauto). rewrite (items_numbered sel NS), keep_past. cbn [past_of e_off].
    assert (Forall honest pre /\ Forall honest sel) as (HP & HS) by (rewrite E, !Forall_app in HO; tauto).
    destruct (chain_consecutive _ _ _ C1 HP) as (CP & LP). destruct (chain_consecutive _ _ _ C2 HS) as (CS & LS).
    assert (p = b_base b0) as Ep. { pose proof (chain_app _ _ _ _ _ C2 C3) as X. rewrite E0 in X. cbn [chain] in X. destruct X. congruence. }
    assert (filter (fun x => pos <=? offset_of x) (flat_map stamped pre) = []) as PN.
    { apply filter_none. intros x IN. pose proof (consecutive_in _ _ _ CP IN). unfold contains in CT. lia. }
    assert (exists K2 R2, rest = K2 ++ R2 /\ kept r H = pre ++ sel ++ K2 \/ sel = [] /\ kept r H = pre /\ K2 = []) as (K2 & R2 & KK).
    { destruct sel as [|s0 sel].
      - exists [], []. right. split; [reflexivity|]. split; [|reflexivity]. destruct D as [(D & _)|(b & t & Eb & CTb)]; [congruence|]. cbn in E, C2. subst q. rewrite EL in E. 
        apply app_eq_app in E as (l & [(E1 & E2)|(E1 & E2)]).
        + destruct l as [|y l]; [rewrite app_nil_r in E1; exact E1|]. exfalso. rewrite E1 in CK. apply chain_split in CK as (z & CK1 & CK2). cbn [chain] in CK2. destruct CK2 as (Z1 & Z2 & CK2).
          apply chain_le in CK2. assert (y = b) by (rewrite Eb in E2; cbn [app] in E2; inversion E2; reflexivity). subst y. apply first_end in CTb. unfold batch_end in CTb.
          assert (e <= get_hw r) by (apply LE; rewrite E1; intros X; apply app_eq_nil in X as (_ & X); discriminate X). lia.
        + destruct l as [|y l]; [rewrite app_nil_r in E1; congruence|]. exfalso. pose proof (HD y _ E2) as HY. rewrite E1 in C1. apply chain_split in C1 as (z & C11 & C12). cbn [chain] in C12. destruct C12 as (Z1 & Z2 & C12). apply chain_le in C12. unfold batch_end in HY. lia.
      - assert (exists K2, kept r H = (pre ++ s0 :: sel) ++ K2 /\ rest = K2 ++ R) as (K2 & EK & ER).
        { rewrite EL, app_assoc in E. apply app_eq_app in E as (l & [(E1 & E2)|(E1 & E2)]); [exists l; auto|].
          destruct l as [|y l]; [rewrite app_nil_r in E1; exists []; rewrite app_nil_r; split; [congruence|exact (eq_sym E2)]|]. exfalso.
          pose proof (HD y _ E2) as HY. pose proof (chain_app _ _ _ _ _ C1 C2) as C12. rewrite E1 in C12. apply chain_split in C12 as (z & C11 & C12). cbn [chain] in C12. destruct C12 as (Z1 & Z2 & C12). apply chain_le in C12. unfold batch_end in HY. lia. }
        exists K2, R. left. split; [exact ER|]. rewrite EK, <- app_assoc. reflexivity. }
    assert (want r H n = filter (fun x => pos <=? offset_of x) (flat_map stamped sel) ++ filter (fun x => pos <=? offset_of x) (flat_map stamped K2)) as EW2.
    { rewrite EW. unfold committed. destruct KK as [(_ & ->)|(-> & -> & ->)]; [rewrite !flat_map_app, !filter_app, PN; reflexivity|rewrite PN; reflexivity]. }
    exists (length (filter (fun x => pos <=? offset_of x) (flat_map stamped sel))). rewrite EW2. split; [|split].
    + rewrite firstn_app, Nat.sub_diag. cbn [firstn]. rewrite app_nil_r, firstn_all. reflexivity.
    + intros W X. apply length_zero_iff_nil in X. rewrite X in W. cbn [app] in W. destruct KK as [(ER & EK)|(_ & _ & ->)]; [|apply W; reflexivity].
      rewrite (consecutive_filter _ p pos CS) in X.
      assert (zlen (flat_map stamped sel) <= pos - p) as LL.
      { assert (length (skipn (Z.to_nat (pos - p)) (flat_map stamped sel)) = 0%nat) as X0 by (rewrite X; reflexivity). rewrite skipn_length in X0. unfold zlen in *. unfold contains in CT. lia. }
      destruct sel as [|s0 sel].
      * cbn in E0, C2. destruct D as [(D & _)|(b & t & Eb & CTb)]; [congruence|]. rewrite E0 in Eb. inversion Eb; subst b t.
        destruct K2 as [|y K2]; [apply W; reflexivity|]. rewrite E0 in ER. cbn [app] in ER. inversion ER; subst y.
        apply W. apply filter_none. intros x IN. exfalso.
        rewrite EK in CK. cbn [app] in CK. apply chain_split in CK as (z & CK1 & CK2). cbn [chain] in CK2. destruct CK2 as (Z1 & Z2 & CK2). apply chain_le in CK2. apply first_end in CTb. unfold batch_end in CTb.
        assert (e <= get_hw r) by (apply LE; rewrite EK; intros Y; cbn [app] in Y; apply app_eq_nil in Y as (_ & Y); discriminate Y). lia.
      * cbn [app] in E0. inversion E0; subst s0 t0. cbn [chain] in C2. destruct C2 as (Z1 & Z2 & C2). apply chain_le in C2. unfold contains in CT. lia.
    + intros ONE. rewrite app_length. assert (K2 = []) as ->; [|cbn; lia].
      destruct KK as [(ER & EK)|(_ & _ & K)]; [|exact K]. destruct K2 as [|y K2]; [reflexivity|]. exfalso.
      assert (e <= get_hw r) as EH by (apply LE; rewrite EK; intros Y; apply app_eq_nil in Y as (_ & Y); apply app_eq_nil in Y as (_ & Y); discriminate Y).
      rewrite EK in CK. apply chain_split in CK as (z & CK1 & CK2). apply chain_split in CK2 as (z2 & CK2 & CK3).
      pose proof (chain_fun _ _ _ _ CK1 C1). subst z. pose proof (chain_fun _ _ _ _ CK2 C2). subst z2. cbn [chain] in CK3. destruct CK3 as (Z1 & Z2 & CK3). apply chain_le in CK3.
      destruct D as [(D1 & [D2|D2])|(b & t & Eb & CTb)].
      * rewrite D2 in ER. discriminate ER.
      * apply (ONE q D2). split; [|lia]. destruct sel as [|s0 sel]; [congruence|]. cbn [app] in E0. inversion E0; subst s0 t0. cbn [chain] in C2. destruct C2 as (Y1 & Y2 & C2). apply chain_le in C2. unfold contains in CT. fold pos. lia.
      * rewrite Eb in ER. cbn [app] in ER. inversion ER; subst y. apply first_end in CTb. unfold batch_end in CTb. lia.
Qed.

Lemma lastn_skip {A} n (l : list A) k : (k <= length l)%nat -> n = (length l - k)%nat -> skipn k l = lastn n l.
Proof. intros K ->. unfold lastn. f_equal. lia. Qed.
Lemma last_safe c r H n : config_ok c -> hist c r H -> Forall numbered H -> get_log_start r <= get_hw r -> 0 <= n < 2 ^ 63 ->
  exists k, read_lookback r (Last n) = Done (map snd (firstn k (filter (fun x => get_hw r - n <=? offset_of x) (committed r H))))
    /\ (filter (fun x => get_hw r - n <=? offset_of x) (committed r H) <> [] -> k <> 0%nat).
Proof.
  intros CO HI NU SH N. destruct (last_gives c r H n CO (hist_logged _ _ _ CO HI) NU SH N) as (k & E & W & _). exists k. unfold read_lookback. rewrite E, past_recs. split; [reflexivity|exact W].
Qed.
Lemma boundary_end c r H : config_ok c -> logged c r H -> get_log_start r <= get_hw r -> at_boundary r H -> chain (get_log_start r) (kept r H) (get_hw r) /\ Forall honest (kept r H).
Proof.
  intros CO LG SH B. destruct (kept_split _ _ _ CO LG) as (L & R & e & IL & EL & CK & CR & LE & HD & HO & S0 & INC & HW).
  split; [|rewrite EL in HO; apply Forall_app in HO; tauto].
  assert (e = get_hw r) as <-; [|exact CK]. destruct B as [B|(b & IN & B)].
  - destruct (kept r H) as [|b K] eqn:EK; [cbn in CK; lia|]. exfalso. cbn [chain] in CK. destruct CK as (Z1 & Z2 & CK). apply chain_le in CK. pose proof (LE ltac:(discriminate)). lia.
  - pose proof (chain_in _ _ _ _ CK IN). assert (kept r H <> []) as NE by (intros X; rewrite X in IN; contradiction). pose proof (LE NE). lia.
Qed.
Lemma last_all c r H n : config_ok c -> hist c r H -> Forall numbered H -> get_log_start r <= get_hw r -> 0 <= n < 2 ^ 63 -> at_boundary r H ->
  one_segment r (Z.max (get_log_start r) (get_hw r - n)) ->
  read_lookback r (Last n) = Done (map snd (lastn (Z.to_nat n) (committed r H))).
Proof.
  intros CO HI NU SH N B ONE. pose proof (hist_logged _ _ _ CO HI) as LG. destruct (last_gives c r H n CO LG NU SH N) as (k & E & _ & K). specialize (K ONE).
  unfold read_lookback. rewrite E, past_recs, firstn_all2 by exact K. do 2 f_equal.
  destruct (boundary_end _ _ _ CO LG SH B) as (CK & HK). destruct (chain_consecutive _ _ _ CK HK) as (CC & LC). fold (committed r H) in CC, LC.
  unfold want. rewrite (consecutive_filter _ _ _ CC). unfold zlen in LC. pose proof (kept_split _ _ _ CO LG) as (_ & _ & _ & _ & _ & _ & _ & _ & _ & _ & S0 & _).
  unfold lastn. f_equal. lia.
Qed.

(** * By age *)
Definition old_batch (t : Z) (b : batch bytes) : Prop := h_max_ts (b_hdr b) < t.
Definition young_batch (t : Z) (b : batch bytes) : Prop := t <= h_max_ts (b_hdr b).

(** Whatever the loop returns are committed batches, in order. *)
Lemma age_sound c r H L t : config_ok c -> logged c r H -> inv c r L -> forall fuel K1 K2 R x o M l,
  L = K1 ++ K2 ++ R -> kept r H = K1 ++ K2 -> chain (get_log_start r) K1 x -> o < x -> x <= get_hw r -> part_of M K2 ->
  batches_by_age fuel r t o (map (received raw_codec) M) = Done l -> exists M', l = map (received raw_codec) M' /\ part_of M' (kept r H).
Proof.
  intros CO LG IL. destruct (kept_split _ _ _ CO LG) as (_ & _ & _ & _ & _ & _ & _ & _ & _ & _ & S0 & _ & HW).
  induction fuel as [|fuel IH]; intros K1 K2 R x o M l EL EK CK OX XH PM BA; cbn [batches_by_age] in BA; [discriminate|].
  assert (exists M', map (received raw_codec) M = map (received raw_codec) M' /\ part_of M' (kept r H)) as STOP by (exists M; split; [reflexivity|rewrite EK; apply part_pre; exact PM]).
  destruct (o <? 0) eqn:NEG; [injection BA as <-; exact STOP|].
  destruct (Z.lt_ge_cases (o - 1) (get_log_start r)) as [LO|GE].
  { rewrite (read_below _ _ _ _ _ _ IL LO) in BA. discriminate. }
  pose proof (chain_le _ _ _ CK).
  destruct (read_at c r H L (o - 1) CO LG IL ltac:(lia) ltac:(lia)) as (pre & sel & rest & p & q & sl & E & C1 & C2 & C3 & Q & (b0 & t0 & E0 & CT) & RD & SB & RC & D).
  rewrite RD, SB, RC in BA. destruct sel as [|b sel]; cbn [map] in BA; [injection BA as <-; exact STOP|].
  cbn [app] in E0. inversion E0; subst b0 t0. change (h_max_ts (b_hdr (received raw_codec b))) with (h_max_ts (b_hdr b)) in BA. change (b_base (received raw_codec b)) with (b_base b) in BA.
  destruct (h_max_ts (b_hdr b) <? t); [injection BA as <-; exact STOP|].
  assert (p = b_base b) as EP by (cbn [chain] in C2; destruct C2; congruence). unfold contains in CT.
  destruct (split_inside K1 (K2 ++ R) pre (sel ++ rest) (get_log_start r) b x p) as (Z & EZ); [rewrite <- EL, E; reflexivity|exact CK|exact C1|lia|].
  change (received raw_codec b :: map (received raw_codec) M) with (map (received raw_codec) (b :: M)) in BA.
  eapply (IH pre (b :: Z ++ K2) R p (b_base b - 1) (b :: M) l); [rewrite EL, EZ, <- app_assoc; cbn [app]; rewrite <- app_assoc; reflexivity|rewrite EK, EZ, <- app_assoc; reflexivity|exact C1|lia| | |exact BA].
  - lia.
  - apply part_keep. apply part_pre. exact PM.
Qed.

(** What the loop returns when every batch has two records. *)
Lemma age_loop c r H L t : config_ok c -> logged c r H -> inv c r L -> forall K1 K2 R x fuel,
  L = (K1 ++ K2) ++ R -> kept r H = K1 ++ K2 -> chain (get_log_start r) K1 x -> x <= get_hw r -> Forall (fun b => 2 <= records_len b) K1 -> (length K1 < fuel)%nat ->
  exists A B, K1 = A ++ B /\ Forall (young_batch t) B
    /\ ((exists A' b, A = A' ++ [b] /\ old_batch t b /\ batches_by_age fuel r t (x - 1) (map (received raw_codec) K2) = Done (map (received raw_codec) (B ++ K2)))
        \/ A = [] /\ batches_by_age fuel r t (x - 1) (map (received raw_codec) K2)
            = if get_log_start r =? 0 then Done (map (received raw_codec) (B ++ K2)) else Fail (OffsetEvicted (get_log_start r - 2) (get_log_start r))).
Proof.
  intros CO LG IL. destruct (kept_split _ _ _ CO LG) as (_ & _ & _ & _ & _ & _ & _ & _ & _ & _ & S0 & _ & HW).
  intros K1. induction K1 as [|b K1 IH] using rev_ind; intros K2 R x fuel EL EK CK XH TW FU.
  - cbn in CK. subst x. exists [], []. split; [reflexivity|]. split; [constructor|]. right. split; [reflexivity|].
    destruct fuel as [|fuel]; [lia|]. cbn [batches_by_age]. destruct (get_log_start r =? 0) eqn:Z.
    + replace (get_log_start r - 1 <? 0) with true by lia. reflexivity.
    + replace (get_log_start r - 1 <? 0) with false by lia. rewrite (read_below _ _ _ _ _ _ IL) by lia. do 2 f_equal. lia.
  - rewrite app_length in FU. cbn [length] in FU. destruct fuel as [|fuel]; [lia|]. apply Forall_app in TW as (TW & TB). pose proof (Forall_inv TB) as B2. cbv beta in B2.
    apply chain_split in CK as (y & CK & CB). cbn [chain] in CB. destruct CB as (EB & PB & XE). pose proof (chain_le _ _ _ CK).
    assert (batch_end b = x) as BE by (unfold batch_end; lia).
    assert (x <= get_leo r) as XL by lia.
    cbn [batches_by_age]. replace (x - 1 <? 0) with false by lia.
    destruct (read_at c r H L (x - 1 - 1) CO LG IL ltac:(lia) ltac:(lia)) as (pre & sel & rest & p & q & sl & E & C1 & C2 & C3 & Q & (b0 & t0 & E0 & CT) & RD & SB & RC & D).
    assert (L = K1 ++ b :: (K2 ++ R)) as EL' by (rewrite EL, <- !app_assoc; reflexivity).
    assert (pre = K1 /\ b0 = b) as (-> & ->).
    { rewrite EL' in E. rewrite E0 in E. unfold contains in CT.
      assert (p = b_base b0) as EP. { pose proof (chain_app _ _ _ _ _ C2 C3) as X. rewrite E0 in X. cbn [chain] in X. destruct X. congruence. }
      apply app_eq_app in E as (l & [(E1 & E2)|(E1 & E2)]).
      - destruct l as [|z l]; [rewrite app_nil_r in E1; inversion E2; split; congruence|]. exfalso. cbn [app] in E2. inversion E2; subst z. rewrite E1 in CK. apply chain_split in CK as (w & W1 & W2). cbn [chain] in W2. destruct W2 as (W3 & W4 & W2). apply chain_le in W2. lia.
      - destruct l as [|z l]; [rewrite app_nil_r in E1; inversion E2; split; congruence|]. exfalso. cbn [app] in E2. inversion E2; subst z. rewrite E1 in C1. apply chain_split in C1 as (w & W1 & W2). cbn [chain] in W2. destruct W2 as (W3 & W4 & W2). apply chain_le in W2. unfold batch_end in BE. lia. }
    destruct sel as [|b' sel].
    { exfalso. destruct D as [(D & _)|(bb & tt & EE & CTb)]; [congruence|]. cbn [app] in E0. rewrite E0 in EE. inversion EE; subst. apply first_end in CTb. lia. }
    cbn [app] in E0. inversion E0; subst b' t0. rewrite RD, SB, RC. cbn [map]. change (h_max_ts (b_hdr (received raw_codec b))) with (h_max_ts (b_hdr b)). change (b_base (received raw_codec b)) with (b_base b).
    destruct (h_max_ts (b_hdr b) <? t) eqn:T.
    + exists (K1 ++ [b]), []. split; [rewrite app_nil_r; reflexivity|]. split; [constructor|]. left. exists K1, b. split; [reflexivity|]. split; [unfold old_batch; lia|reflexivity].
    + change (received raw_codec b :: map (received raw_codec) K2) with (map (received raw_codec) (b :: K2)).
      destruct (IH (b :: K2) R y fuel) as (A & B & EA & YB & G); [rewrite EL', <- app_assoc; reflexivity|rewrite EK, <- app_assoc; reflexivity|exact CK|lia|exact TW|lia|].
      exists A, (B ++ [b]). split; [rewrite EA, app_assoc; reflexivity|]. split; [apply Forall_app; split; [exact YB|constructor; [unfold young_batch; lia|constructor]]|].
      rewrite EB. rewrite <- !app_assoc. exact G.
Qed.

Lemma chain_length B : forall a e, chain a B e -> Z.of_nat (length B) <= e - a.
Proof. induction B as [|b B IH]; intros a e CH; cbn [chain length] in *; [lia|]. destruct CH as (_ & P & CH). apply IH in CH. lia. Qed.
Lemma ascending_app A B : ascending (A ++ B) -> forall a b, In a A -> In b B -> h_max_ts (b_hdr a) <= h_max_ts (b_hdr b).
Proof.
  induction A as [|x A IH]; intros S a b IA IB; [contradiction|]. cbn [app ascending] in S. destruct S as (S1 & S). destruct IA as [->|IA]; [apply S1, in_or_app; auto|apply IH; assumption].
Qed.
Lemma kept_incl r H : incl (kept r H) H.
Proof. intros b IN. apply filter_In in IN. tauto. Qed.
Lemma kept_numbered r H : Forall numbered H -> Forall numbered (kept r H).
Proof. intros F. rewrite Forall_forall in *. intros b IN. apply F, (kept_incl _ _ _ IN). Qed.

Lemma age_full c r H t : config_ok c -> hist c r H -> Forall numbered H -> get_log_start r <= get_hw r -> at_boundary r H -> in_time r H -> two_each r H -> reaches_back r H t ->
  read_lookback r (Age t 0) = Done (map snd (since t (committed r H))).
Proof.
  intros CO HI NU SH BD (CV & AS) TW RB. pose proof (hist_logged _ _ _ CO HI) as LG. destruct (boundary_end _ _ _ CO LG SH BD) as (CK & HK).
  destruct (kept_split _ _ _ CO LG) as (L & R & e & IL & EL & _ & _ & _ & _ & _ & S0 & _ & HW).
  destruct (age_loop c r H L t CO LG IL (kept r H) [] R (get_hw r) (S (Z.to_nat (get_hw r)))) as (A & B & EK & YB & G).
  - rewrite app_nil_r. exact EL.
  - rewrite app_nil_r. reflexivity.
  - exact CK.
  - lia.
  - exact TW.
  - apply chain_length in CK. lia.
  - rewrite app_nil_r in G. cbn [map] in G.
    assert (Forall (old_batch t) A /\ batches_by_age (S (Z.to_nat (get_hw r))) r t (get_hw r - 1) [] = Done (map (received raw_codec) B)) as (OA & RES).
    { destruct G as [(A' & b & -> & OB & G)|(-> & G)].
      - split; [|exact G]. rewrite EK, <- app_assoc in AS. rewrite Forall_app. split; [|constructor; [exact OB|constructor]]. apply Forall_forall. intros a IA. unfold old_batch in *.
        pose proof (ascending_app _ _ AS a b IA (or_introl eq_refl)). lia.
      - split; [constructor|]. cbn [app] in EK. destruct RB as [Z|(b & IN & OB)].
        + rewrite Z in G. cbn [Z.eqb] in G. rewrite Z in *. exact G.
        + exfalso. rewrite EK in IN. rewrite Forall_forall in YB. apply YB in IN. unfold young_batch in IN. lia. }
    unfold read_lookback. unfold lookback_age. cbn [Z.ltb Z.compare]. rewrite RES. 
    assert (Forall numbered B) as NB by (pose proof (kept_numbered r H NU) as X; rewrite EK, Forall_app in X; tauto).
    rewrite (items_numbered B NB), keep_past, past_recs. do 2 f_equal. unfold since, committed. rewrite EK, flat_map_app, filter_app.
    assert (filter (fun x => t <=? time_of x) (flat_map stamped A) = []) as ->; [|reflexivity].
    apply filter_none. intros x IN. apply in_flat_map in IN as (b & IB & IX). rewrite Forall_forall in OA. pose proof (OA b IB) as OB. unfold old_batch in OB.
    rewrite Forall_forall in CV. pose proof (CV b ltac:(rewrite EK; apply in_or_app; auto) x IX). lia.
Qed.
Lemma age_evicted c r H t : config_ok c -> hist c r H -> 0 < get_log_start r <= get_hw r -> at_boundary r H -> two_each r H ->
  Forall (fun b => t <= h_max_ts (b_hdr b)) (kept r H) ->
  read_lookback r (Age t 0) = Fail (OffsetEvicted (get_log_start r - 2) (get_log_start r)).
Proof.
  intros CO HI SH BD TW YG. pose proof (hist_logged _ _ _ CO HI) as LG. destruct (boundary_end _ _ _ CO LG ltac:(lia) BD) as (CK & HK).
  destruct (kept_split _ _ _ CO LG) as (L & R & e & IL & EL & _ & _ & _ & _ & _ & S0 & _ & HW).
  destruct (age_loop c r H L t CO LG IL (kept r H) [] R (get_hw r) (S (Z.to_nat (get_hw r)))) as (A & B & EK & YB & G).
  - rewrite app_nil_r. exact EL.
  - rewrite app_nil_r. reflexivity.
  - exact CK.
  - lia.
  - exact TW.
  - apply chain_length in CK. lia.
  - cbn [map] in G. unfold read_lookback. unfold lookback_age. cbn [Z.ltb Z.compare]. destruct G as [(A' & b & -> & OB & G)|(-> & G)].
    + exfalso. rewrite Forall_forall in YG. unfold old_batch in OB. specialize (YG b). rewrite EK in YG. specialize (YG ltac:(apply in_or_app; left; apply in_or_app; right; left; reflexivity)). lia.
    + rewrite G. replace (get_log_start r =? 0) with false by lia. reflexivity.
Qed.
Lemma age_parts c r H t n l : config_ok c -> hist c r H -> Forall numbered H -> get_log_start r <= get_hw r -> 0 <= n ->
  read_lookback r (Age t n) = Done l -> exists l', l = map snd l' /\ part_of l' (since t (committed r H)).
Proof.
  intros CO HI NU SH N E. pose proof (hist_logged _ _ _ CO HI) as LG. unfold read_lookback in E. unfold lookback_age in E. destruct (0 <? n) eqn:P.
  - destruct (Z.lt_ge_cases n (2 ^ 63)) as [LT|GE].
    + destruct (last_gives c r H n CO LG NU SH ltac:(lia)) as (k & G & _). rewrite G, keep_past, past_recs in E. injection E as <-. eexists. split; [reflexivity|].
      unfold since. cbn [past_of e_ts]. apply part_filter. unfold want. generalize (committed r H) as z. intros z.
      assert (forall (w : list (Z * Z * rec)) k, part_of (firstn k w) w) as F.
      { induction w as [|a w IH]; intros [|j]; cbn [firstn]; [constructor|constructor| |constructor; apply IH].
        apply part_skip. clear IH. induction w; constructor; assumption. }
      assert (forall (f : Z * Z * rec -> bool) w, part_of (filter f w) w) as F2.
      { intros f w. induction w as [|a w IH]; cbn [filter]; [constructor|]. destruct (f a); constructor; exact IH. }
      assert (forall (a b d : list (Z * Z * rec)), part_of a b -> part_of b d -> part_of a d) as TR.
      { intros a b d Q1 Q2. revert a Q1. induction Q2 as [|y b d Q2 IH|y b d Q2 IH]; intros a Q1; [exact Q1| |apply part_skip; auto]. inversion Q1; subst; [apply part_keep; auto|apply part_skip; auto]. }
      eapply TR; [apply F|apply F2].
    + unfold lookback_last in E. replace (2 ^ 63 <=? n) with true in E by lia. discriminate.
  - destruct (batches_by_age (S (Z.to_nat (get_hw r))) r t (get_hw r - 1) []) as [m|] eqn:BA; [|discriminate].
    destruct (kept_split _ _ _ CO LG) as (L & R & e & IL & EL & CK & _ & LE & HD & _ & S0 & _ & HW).
    assert (exists M', m = map (received raw_codec) M' /\ part_of M' (kept r H)) as (M & -> & PM).
    { destruct (Z.lt_ge_cases (get_hw r - 1) e) as [LT|GE].
      - destruct (kept r H) as [|b0 K0] eqn:EK.
        + cbn in CK. destruct (Z.le_gt_cases e (get_hw r)) as [LE'|GT].
          * rewrite <- EK. eapply (age_sound c r H L t CO LG IL _ [] [] R e _ []); [exact EL|exact EK|rewrite CK; reflexivity|exact LT|exact LE'|constructor|exact BA].
          * exfalso. lia.
        + rewrite <- EK in *. eapply (age_sound c r H L t CO LG IL _ (kept r H) [] R e _ []); [exact EL|rewrite app_nil_r; reflexivity|exact CK|exact LT| |constructor|exact BA].
          apply LE. rewrite EK. discriminate.
      - (* the watermark lies inside a batch *)
        cbn [batches_by_age] in BA. destruct (get_hw r - 1 <? 0) eqn:NG; [injection BA as <-; exists []; split; [reflexivity|clear; induction (kept r H); constructor; assumption]|].
        destruct (Z.lt_ge_cases (get_hw r - 1 - 1) (get_log_start r)) as [LO|HI2]; [rewrite (read_below _ _ _ _ _ _ IL LO) in BA; discriminate|].
        destruct (read_at c r H L (get_hw r - 1 - 1) CO LG IL ltac:(lia) ltac:(lia)) as (pre & sel & rest & p & q & sl & E1 & C1 & C2 & C3 & Q & (b0 & t0 & E0 & CT) & RD & SB & RC & D).
        rewrite RD, SB, RC in BA. destruct sel as [|b sel]; cbn [map] in BA; [injection BA as <-; exists []; split; [reflexivity|clear; induction (kept r H); constructor; assumption]|].
        cbn [app] in E0. inversion E0; subst b0 t0. change (h_max_ts (b_hdr (received raw_codec b))) with (h_max_ts (b_hdr b)) in BA. change (b_base (received raw_codec b)) with (b_base b) in BA.
        destruct (h_max_ts (b_hdr b) <? t); [injection BA as <-; exists []; split; [reflexivity|clear; induction (kept r H); constructor; assumption]|].
        assert (p = b_base b) as EP by (cbn [chain] in C2; destruct C2; congruence).
        assert (p < e) as PE.
        { pose proof C2 as C2'. cbn [chain] in C2'. destruct C2' as (_ & PB & C2'). apply chain_le in C2'.
          destruct (Z.lt_ge_cases p e) as [Y|Y]; [exact Y|]. exfalso.
          rewrite EL in E1. apply app_eq_app in E1 as (l0 & [(X1 & X2)|(X1 & X2)]).
          - destruct l0 as [|z l0]; [cbn [app] in X2; pose proof (HD b _ (eq_sym X2)) as X; unfold batch_end in X; lia|].
            rewrite X1 in CK. apply chain_split in CK as (w & W1 & W2). pose proof (chain_fun _ _ _ _ W1 C1). cbn [chain] in W2. destruct W2 as (_ & W3 & W2). apply chain_le in W2. lia.
          - destruct l0 as [|z l0]; [cbn [app] in X2; pose proof (HD b _ X2) as X; unfold batch_end in X; lia|]. pose proof (HD z _ X2) as X.
            rewrite X1 in C1. apply chain_split in C1 as (w & W1 & W2). cbn [chain] in W2. destruct W2 as (W4 & W3 & W2). apply chain_le in W2. unfold batch_end in X. lia. }
        destruct (split_inside (kept r H) R pre (sel ++ rest) (get_log_start r) b e p) as (Z & EZ); [rewrite <- EL, E1; reflexivity|exact CK|exact C1|exact PE|].
        change [received raw_codec b] with (map (received raw_codec) [b]) in BA.
        eapply (age_sound c r H L t CO LG IL _ pre (b :: Z) R p (b_base b - 1) [b]); [rewrite EL, EZ, <- app_assoc; reflexivity|exact EZ|exact C1|lia| | |exact BA].
        + cbn [chain] in C2. destruct C2 as (_ & PB & C2). apply chain_le in C2. lia.
        + apply part_keep. clear. induction Z; constructor; assumption. }
    assert (Forall numbered M) as NM by (pose proof (kept_numbered r H NU) as X; rewrite Forall_forall in *; intros b IN; apply X, (part_in _ _ _ PM IN)).
    rewrite (items_numbered M NM), keep_past, past_recs in E. injection E as <-. eexists. split; [reflexivity|]. unfold since, committed. cbn [past_of e_ts]. apply part_filter, part_flat, PM.
Qed.
