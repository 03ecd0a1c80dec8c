From Verif Require Import Base ListFacts WireModel WireSpec.

(** * Varints *)

Lemma land127_byte b : 0 <= b < 256 -> Z.land b 127 = b mod 128.
Proof.
  intros _. change 127 with (Z.ones 7). rewrite Z.land_ones by lia. reflexivity.
Qed.

Lemma cont_byte x : 0 <= x < 128 ->
  Z.land (Z.lor x 128) 127 = x /\ Z.land (Z.lor x 128) 128 = 128 /\ is_byte (Z.lor x 128).
Proof.
  intros Hx.
  assert (zforallb 128 (fun x => (Z.land (Z.lor x 128) 127 =? x) && (Z.land (Z.lor x 128) 128 =? 128)
             && (0 <=? Z.lor x 128) && (Z.lor x 128 <? 256)) = true) as S by (vm_compute; reflexivity).
  pose proof (zforallb_spec _ _ S x ltac:(lia)) as H. cbv beta in H. unfold is_byte. lia.
Qed.

Lemma mask_bits v i : Z.land v 0xffffff80 = 0 -> 7 <= i < 32 -> Z.testbit v i = false.
Proof.
  intros H Hi. assert (Z.testbit (Z.land v 0xffffff80) i = false) as B by (rewrite H; apply Z.bits_0).
  rewrite Z.land_spec in B.
  assert (Z.testbit 0xffffff80 i = true) as M.
  { change 0xffffff80 with (Z.shiftl (Z.ones 25) 7).
    rewrite Z.shiftl_spec by lia. rewrite Z.ones_spec_low by lia. reflexivity. }
  rewrite M, andb_true_r in B. exact B.
Qed.

Lemma mask_small v : 0 <= v < 128 -> Z.land v 0xffffff80 = 0.
Proof.
  intros Hv. apply Z.bits_inj'. intros i Hi. rewrite Z.land_spec, Z.bits_0.
  destruct (Z.lt_ge_cases i 7) as [Hlt|Hge].
  - change 0xffffff80 with (Z.shiftl (Z.ones 25) 7). rewrite Z.shiftl_spec_low by lia. apply andb_false_r.
  - replace v with (v mod 2 ^ 7) by (apply Z.mod_small; lia).
    rewrite Z.mod_pow2_bits_high by lia. reflexivity.
Qed.

Lemma mask_zero_small v : 0 <= v < 2 ^ 32 -> Z.land v 0xffffff80 = 0 -> v < 128.
Proof.
  intros Hv H.
  assert (v = v mod 2 ^ 7) as ->; [|apply Z.mod_pos_bound; lia].
  apply Z.bits_inj'. intros i Hi.
  destruct (Z.lt_ge_cases i 7) as [Hlt|Hge].
  - rewrite Z.mod_pow2_bits_low by lia. reflexivity.
  - rewrite Z.mod_pow2_bits_high by lia.
    destruct (Z.lt_ge_cases i 32) as [Hlt2|Hge2]; [apply mask_bits; [assumption|lia]|].
    replace v with (v mod 2 ^ 32) by (apply Z.mod_small; lia).
    apply Z.mod_pow2_bits_high. lia.
Qed.

Definition unzig (w : Z) : Z := Z.lxor (Z.shiftr w 1) (- Z.land w 1).

Lemma low_byte v : Z.land v 0xffffff80 = 0 -> 
  Z.land (Z.land v 255) 127 = v mod 128 /\ Z.land (Z.land v 255) 128 = 0 /\ is_byte (Z.land v 255).
Proof.
  intros H. split; [|split].
  - rewrite <- Z.land_assoc. change (Z.land 255 127) with (Z.ones 7). rewrite Z.land_ones by lia. reflexivity.
  - rewrite <- Z.land_assoc. change (Z.land 255 128) with 128.
    apply Z.bits_inj'. intros i Hi. rewrite Z.land_spec, Z.bits_0.
    change 128 with (2 ^ 7). destruct (Z.eq_dec i 7) as [->|Hne].
    + rewrite (mask_bits v 7) by (assumption || lia). reflexivity.
    + rewrite (Z.pow2_bits_false 7 i) by lia. apply andb_false_r.
  - change 255 with (Z.ones 8). rewrite Z.land_ones by lia. unfold is_byte.
    pose proof (Z.mod_pos_bound v (2^8)). lia.
Qed.

Lemma vdec_step num x shift : 0 <= shift < 64 -> 0 <= x -> x * 2 ^ shift < 2 ^ 63 -> 0 <= num < 2 ^ shift ->
  Z.lor num (wrap_s 64 (Z.shiftl x shift)) = num + x * 2 ^ shift.
Proof.
  intros Hs Hx Hb Hn. rewrite Z.shiftl_mul_pow2 by lia.
  assert (0 <= x * 2 ^ shift) by (apply Z.mul_nonneg_nonneg; lia).
  rewrite wrap_s_id; [|lia|unfold in_s; change (2 ^ (64 - 1)) with (2 ^ 63); lia].
  apply lor_add; lia.
Qed.

Lemma mask_zero_neg v : v < 0 -> Z.land v 0xffffff80 = 0 -> v < - 2 ^ 31.
Proof.
  intros Hv H. destruct (Z.lt_ge_cases v (- 2 ^ 31)) as [|Hge]; [assumption|exfalso].
  pose proof (mask_bits v 31 H ltac:(lia)) as B.
  rewrite Z.testbit_odd in B. rewrite Z.shiftr_div_pow2 in B by lia.
  replace (v / 2 ^ 31) with (-1) in B; [discriminate|].
  change (2 ^ 31) with 2147483648 in *. lia.
Qed.

Lemma venc_loop_neg fuel : forall v bs, venc_loop fuel v = Some bs -> v < 0 -> v < - 2 ^ 31.
Proof.
  induction fuel as [|f IH]; intros v bs H Hv; [discriminate|]. cbn [venc_loop] in H.
  destruct (Z.land v 0xffffff80 =? 0) eqn:E; [apply mask_zero_neg; lia|].
  destruct (venc_loop f (Z.shiftr v 7)) as [bs'|] eqn:E'; [|discriminate].
  pose proof (IH _ _ E') as IH'. rewrite Z.shiftr_div_pow2 in IH' by lia.
  change (2 ^ 7) with 128 in IH'. change (2 ^ 31) with 2147483648 in *. lia.
Qed.

(** What the decoder makes of the bytes the encoder loop wrote for [v]. *)
Lemma venc_loop_decodes fuel : forall v bs num shift,
  venc_loop fuel v = Some bs ->
  0 <= shift < 64 -> - 2 ^ 63 <= v * 2 ^ shift < 2 ^ 63 -> 0 <= num < 2 ^ shift ->
  exists m, 0 <= m /\ (0 <= v < 2 ^ 32 -> v mod 2 ^ m = v) /\ is_bytes bs
    /\ (forall rest, vdec_loop (bs ++ rest) num shift = Ok (unzig (num + (v mod 2 ^ m) * 2 ^ shift), rest))
    /\ (forall k, (k < length bs)%nat -> vdec_loop (firstn k bs) num shift = Err Eof)
    /\ (forall acc, vsize_loop fuel v acc = Some (acc + zlen bs - 1)).
Proof.
  induction fuel as [|f IH]; intros v bs num shift H Hs Hb Hn; [discriminate|].
  pose proof (venc_loop_neg _ _ _ H) as Hneg.
  cbn [venc_loop] in H.
  assert (2 ^ (shift + 7) = 2 ^ shift * 128) as P7 by (rewrite Z.pow_add_r by lia; reflexivity).
  pose proof (Z.mod_pos_bound v 128 ltac:(lia)) as Hm.
  assert (v mod 128 * 2 ^ shift < 2 ^ 63) as Hb0.
  { destruct (Z.lt_ge_cases v 0) as [Hl|Hl].
    - specialize (Hneg Hl). assert (2 ^ shift <= 2 ^ 32) by nia.
      change (2 ^ 32) with 4294967296 in *. change (2^63) with 9223372036854775808 in *. nia.
    - assert (v mod 128 <= v) by (apply Z.mod_le; lia). nia. }
  destruct (Z.land v 0xffffff80 =? 0) eqn:E.
  - apply Z.eqb_eq in E. injection H as <-. destruct (low_byte v E) as (L1 & L2 & L3).
    exists 7. repeat split.
    + lia.
    + intros Hv32. apply Z.mod_small. pose proof (mask_zero_small v ltac:(lia) E). lia.
    + constructor; [exact L3|constructor].
    + intros rest. cbn [app vdec_loop]. rewrite (Z.mod_small shift 64) by lia. rewrite L1, L2.
      change (0 =? 0) with true. cbv iota.
      rewrite vdec_step; [reflexivity|lia| |..]; lia.
    + intros k Hk. cbn [length] in Hk. replace k with 0%nat by lia. reflexivity.
    + intros acc. cbn [vsize_loop]. rewrite E. change (0 =? 0) with true. cbv iota. unfold zlen. cbn [length]. f_equal; lia.
  - destruct (venc_loop f (Z.shiftr v 7)) as [bs'|] eqn:E'; [|discriminate].
    cbn [option_map] in H. injection H as <-.
    assert (Z.land v 127 = v mod 128) as L0.
    { change 127 with (Z.ones 7). rewrite Z.land_ones by lia. reflexivity. }
    rewrite L0 in *. destruct (cont_byte (v mod 128) Hm) as (C1 & C2 & C3).
    assert (Z.shiftr v 7 = v / 128) as SR by (rewrite Z.shiftr_div_pow2 by lia; reflexivity).
    rewrite SR in *.
    assert (128 * (v / 128) + v mod 128 = v) as DM by (symmetry; apply Z.div_mod; lia).
    assert (v < 0 \/ 128 <= v) as Hge.
    { destruct (Z.lt_ge_cases v 0) as [|H0]; [left; assumption|].
      destruct (Z.lt_ge_cases v 128) as [Hlt|]; [|right; assumption].
      rewrite (mask_small v) in E by lia. discriminate. }
    assert (shift + 7 < 64) as Hs7.
    { destruct (Z.lt_ge_cases (shift + 7) 64) as [|Hge64]; [assumption|exfalso].
      assert (2 ^ 57 <= 2 ^ shift) by (apply Z.pow_le_mono_r; lia).
      change (2 ^ 57) with 144115188075855872 in *. change (2^63) with 9223372036854775808 in *.
      change (2 ^ 31) with 2147483648 in *. destruct Hge as [Hl|Hl]; [specialize (Hneg Hl)|]; nia. }
    specialize (IH (v / 128) bs' (num + (v mod 128) * 2 ^ shift) (shift + 7) E').
    destruct IH as (m & Hm0 & Hsmall & Hby & Hdec & Htr & Hsz).
    + lia.
    + rewrite P7. replace (v / 128 * (2 ^ shift * 128)) with (v * 2 ^ shift - v mod 128 * 2 ^ shift) by nia.
      split; [|nia].
      destruct Hge as [Hl|Hl]; [|nia].
      pose proof (venc_loop_neg _ _ _ E') as Hneg'.
      assert (- 2 ^ 63 = - 2 ^ (56 - shift) * (2 ^ shift * 128)) as X.
      { change 128 with (2 ^ 7). rewrite <- Z.pow_add_r by lia.
        rewrite Z.mul_opp_l, <- Z.pow_add_r by lia. f_equal. f_equal. lia. }
      assert (0 < 2 ^ shift) by (apply pow2_pos; lia).
      replace (v * 2 ^ shift - v mod 128 * 2 ^ shift) with (v / 128 * (2 ^ shift * 128)) by nia.
      rewrite X. apply Z.mul_le_mono_nonneg_r; [lia|].
      apply Z.div_le_lower_bound; [lia|].
      assert (- 2 ^ 63 = - 2 ^ (63 - shift) * 2 ^ shift) as X2.
      { rewrite Z.mul_opp_l, <- Z.pow_add_r by lia. f_equal. f_equal. lia. }
      assert (128 * 2 ^ (56 - shift) = 2 ^ (63 - shift)) as X3.
      { change 128 with (2 ^ 7). rewrite <- Z.pow_add_r by lia. f_equal. lia. }
      nia.
    + rewrite P7. nia.
    + exists (7 + m). repeat split.
      * lia.
      * intros Hv32. rewrite Z.pow_add_r by lia. change (2 ^ 7) with 128.
        rewrite Z.rem_mul_r by (try apply pow2_pos; lia). rewrite Hsmall by lia. lia.
      * constructor; [exact C3|exact Hby].
      * intros rest. cbn [app vdec_loop]. rewrite (Z.mod_small shift 64) by lia.
        rewrite C1, C2. change (128 =? 0) with false. cbv iota.
        rewrite vdec_step by lia. rewrite Hdec. f_equal. f_equal. f_equal.
        rewrite P7. rewrite Z.pow_add_r by lia. change (2 ^ 7) with 128.
        rewrite Z.rem_mul_r by (try apply pow2_pos; lia). ring.
      * intros k Hk. destruct k as [|k]; [reflexivity|]. cbn [firstn vdec_loop].
        rewrite (Z.mod_small shift 64) by lia.
        rewrite C1, C2. change (128 =? 0) with false. cbv iota.
        rewrite vdec_step by lia. apply Htr. cbn [length] in Hk. lia.
      * intros acc. cbn [vsize_loop]. rewrite E. rewrite SR, Hsz. unfold zlen. cbn [length]. f_equal. lia.
Qed.

(** Ten rounds suffice for every non-negative i64. *)
Lemma venc_loop_total fuel : forall v, 0 <= v < 2 ^ (7 * Z.of_nat fuel) -> (0 < fuel)%nat ->
  exists bs, venc_loop fuel v = Some bs.
Proof.
  induction fuel as [|f IH]; intros v Hv Hf; [lia|].
  cbn [venc_loop]. destruct (Z.land v 0xffffff80 =? 0) eqn:E; [eauto|].
  destruct f as [|f'].
  - exfalso. change (7 * Z.of_nat 1) with 7 in Hv. rewrite mask_small in E by lia. discriminate.
  - destruct (IH (Z.shiftr v 7)) as [bs Hbs]; [|lia|].
    + rewrite Z.shiftr_div_pow2 by lia.
      replace (7 * Z.of_nat (S (S f'))) with (7 + 7 * Z.of_nat (S f')) in Hv by lia.
      rewrite Z.pow_add_r in Hv by lia. split; [apply Z.div_pos; lia|].
      apply Z.div_lt_upper_bound; lia.
    + rewrite Hbs. eexists. reflexivity.
Qed.


Lemma zigzag_range n : in_s 64 n -> in_s 64 (zigzag n).
Proof.
  intros Hn. unfold zigzag, in_s in *. change (2 ^ (64 - 1)) with (2 ^ 63) in *.
  pose proof (wrap_s_range 64 (Z.shiftl n 1) ltac:(lia)) as Hw. unfold in_s in Hw.
  change (2 ^ (64 - 1)) with (2 ^ 63) in Hw.
  set (a := wrap_s 64 (Z.shiftl n 1)) in *.
  assert (- 2 ^ 63 <= Z.shiftr n 31 < 2 ^ 63) as Hb.
  { rewrite Z.shiftr_div_pow2 by lia. change (2 ^ 31) with 2147483648.
    change (2^63) with 9223372036854775808 in *. lia. }
  set (b := Z.shiftr n 31) in *.
  assert (forall x, - 2 ^ 63 <= x < 2 ^ 63 <-> (Z.shiftr x 63 = 0 \/ Z.shiftr x 63 = -1)) as K.
  { intros x. rewrite Z.shiftr_div_pow2 by lia. change (2^63) with 9223372036854775808.
    assert (9223372036854775808 * (x / 9223372036854775808) <= x < 9223372036854775808 * (x / 9223372036854775808) + 9223372036854775808) by lia.
    generalize dependent (x / 9223372036854775808). intros q Hq. split; lia. }
  apply K. rewrite Z.shiftr_lxor. apply K in Hw, Hb.
  destruct Hw as [-> | ->], Hb as [-> | ->]; cbn; auto.
Qed.

Lemma zigzag_small n : in_s 32 n -> zigzag n = if n <? 0 then - 2 * n - 1 else 2 * n.
Proof.
  unfold in_s. change (2 ^ (32 - 1)) with 2147483648. intros Hn. unfold zigzag.
  rewrite Z.shiftl_mul_pow2 by lia. change (2 ^ 1) with 2.
  rewrite wrap_s_id by (unfold in_s; lia).
  rewrite Z.shiftr_div_pow2 by lia. change (2 ^ 31) with 2147483648.
  destruct (n <? 0) eqn:E.
  - replace (n / 2147483648) with (-1) by lia. rewrite Z.lxor_m1_r. unfold Z.lnot. lia.
  - replace (n / 2147483648) with 0 by lia. rewrite Z.lxor_0_r. lia.
Qed.

Lemma unzig_arith w : unzig w = if w mod 2 =? 0 then w / 2 else - (w / 2) - 1.
Proof.
  unfold unzig. rewrite Z.shiftr_div_pow2 by lia. change (2 ^ 1) with 2.
  replace (Z.land w 1) with (w mod 2) by (symmetry; apply (Z.land_ones w 1); lia).
  destruct (w mod 2 =? 0) eqn:E.
  - replace (w mod 2) with 0 by lia. rewrite Z.lxor_0_r. reflexivity.
  - replace (w mod 2) with 1 by lia. change (- (1)) with (-1). rewrite Z.lxor_m1_r. unfold Z.lnot. lia.
Qed.

Lemma unzig_zigzag n : in_s 32 n -> unzig (zigzag n) = n.
Proof.
  intros Hn. rewrite zigzag_small by assumption. rewrite unzig_arith.
  destruct (n <? 0) eqn:E; destruct (_ =? 0) eqn:E2; lia.
Qed.

Lemma zigzag_small_range n : in_s 32 n -> 0 <= zigzag n < 2 ^ 32.
Proof.
  intros Hn. rewrite zigzag_small by assumption. unfold in_s in Hn.
  change (2 ^ (32 - 1)) with 2147483648 in Hn. change (2 ^ 32) with 4294967296. destruct (n <? 0) eqn:E; lia.
Qed.

Lemma varint_encode_some n : in_s 32 n -> venc_loop varint_fuel (zigzag n) = Some (varint_encode n).
Proof.
  intros Hn. pose proof (zigzag_small_range n Hn) as R.
  destruct (venc_loop_total varint_fuel (zigzag n)) as [bs Hbs].
  - change (7 * Z.of_nat varint_fuel) with 70. assert (2 ^ 32 < 2 ^ 70) by reflexivity. lia.
  - unfold varint_fuel. lia.
  - unfold varint_encode, varint_encode_opt. rewrite Hbs. reflexivity.
Qed.

Lemma varint_laws n : in_s 32 n ->
  (forall rest, varint_decode (varint_encode n ++ rest) = Ok (n, rest))
  /\ varint_size n = zlen (varint_encode n)
  /\ is_bytes (varint_encode n)
  /\ (forall k, (k < length (varint_encode n))%nat -> varint_decode (firstn k (varint_encode n)) = Err Eof).
Proof.
  intros Hn. pose proof (zigzag_small_range n Hn) as R.
  pose proof (varint_encode_some n Hn) as E.
  destruct (venc_loop_decodes _ _ _ 0 0 E) as (m & Hm & Hsm & Hby & Hdec & Htr & Hsz).
  - lia.
  - change (2 ^ 0) with 1. change (2 ^ 32) with 4294967296 in R. change (2^63) with 9223372036854775808. lia.
  - cbn. lia.
  - split; [|split; [|split]].
    + intros rest. unfold varint_decode. rewrite Hdec. rewrite Hsm by assumption.
      change (2 ^ 0) with 1. rewrite Z.mul_1_r, Z.add_0_l. rewrite unzig_zigzag by assumption. reflexivity.
    + unfold varint_size. rewrite Hsz. cbn [option_get]. lia.
    + exact Hby.
    + exact Htr.
Qed.

Lemma venc_loop_mono f : forall v bs, venc_loop f v = Some bs -> forall g, (f <= g)%nat -> venc_loop g v = Some bs.
Proof.
  induction f as [|f IH]; intros v bs H g Hg; [discriminate|].
  destruct g as [|g]; [lia|]. cbn [venc_loop] in *.
  destruct (Z.land v 0xffffff80 =? 0); [assumption|].
  destruct (venc_loop f (Z.shiftr v 7)) as [bs'|] eqn:E; [|discriminate].
  rewrite (IH _ _ E g) by lia. assumption.
Qed.

Lemma varint_writes_det n bs bs' : varint_writes n bs -> varint_writes n bs' -> bs = bs'.
Proof.
  intros [f Hf] [g Hg].
  pose proof (venc_loop_mono _ _ _ Hf (Nat.max f g) ltac:(lia)).
  pose proof (venc_loop_mono _ _ _ Hg (Nat.max f g) ltac:(lia)). congruence.
Qed.

Lemma wrap_s_bits x i : 0 <= i < 64 -> Z.testbit (wrap_s 64 x) i = Z.testbit x i.
Proof.
  intros Hi. rewrite <- (Z.mod_pow2_bits_low (wrap_s 64 x) 64 i) by lia.
  rewrite <- (Z.mod_pow2_bits_low x 64 i) by lia. f_equal. unfold wrap_s.
  rewrite Zminus_mod_idemp_l. f_equal. lia.
Qed.

(** A value outside 32 bits is never recovered. *)
Lemma varint_only_32 n bs rest : in_s 64 n -> varint_writes n bs ->
  varint_decode (bs ++ rest) = Ok (n, rest) -> in_s 32 n.
Proof.
  intros Hn [f Hf] Hd. pose proof (zigzag_range n Hn) as R. unfold in_s in R.
  change (2 ^ (64 - 1)) with (2 ^ 63) in R.
  destruct (venc_loop_decodes _ _ _ 0 0 Hf) as (m & Hm & _ & _ & Hdec & _ & _).
  - lia.
  - change (2 ^ 0) with 1. lia.
  - cbn. lia.
  - unfold varint_decode in Hd. rewrite Hdec in Hd. change (2 ^ 0) with 1 in Hd.
    rewrite Z.mul_1_r, Z.add_0_l in Hd. injection Hd as Hd.
    pose proof (Z.mod_pos_bound (zigzag n) (2 ^ m) (pow2_pos m Hm)) as Hw.
    set (w := zigzag n mod 2 ^ m) in *. rewrite unzig_arith in Hd.
    assert (w = if n <? 0 then - 2 * n - 1 else 2 * n) as Ew.
    { destruct (w mod 2 =? 0) eqn:E; destruct (n <? 0) eqn:E2; lia. }
    unfold in_s in *. change (2 ^ (32 - 1)) with (2 ^ 31).
    destruct (Z.lt_ge_cases w (2 ^ 32)) as [Hlt|Hge].
    { change (2 ^ 32) with 4294967296 in Hlt. change (2 ^ 31) with 2147483648.
      destruct (n <? 0) eqn:E2; lia. }
    assert (32 < m) as Hm32.
    { destruct (Z.lt_ge_cases 32 m) as [|Hle]; [assumption|exfalso].
      assert (2 ^ m <= 2 ^ 32) by (apply Z.pow_le_mono_r; lia). lia. }
    assert (forall i, 31 <= i -> Z.testbit n i = (n <? 0)) as K.
    { intros i Hi. destruct (Z.lt_ge_cases i 64) as [Hi64|Hi64].
      2: { destruct (n <? 0) eqn:E2.
           - rewrite <- (Z.lnot_involutive n), Z.lnot_spec by lia.
             rewrite Z.bits_above_log2; [reflexivity|unfold Z.lnot; lia|].
             change (2 ^ (64 - 1)) with (2 ^ 63) in Hn.
             destruct (Z.eq_dec (Z.lnot n) 0) as [->|Hnz]; [cbn; lia|].
             apply Z.lt_le_trans with 63; [|lia]. apply Z.log2_lt_pow2; unfold Z.lnot in *; lia.
           - apply Z.bits_above_log2; [lia|]. change (2 ^ (64 - 1)) with (2 ^ 63) in Hn.
             destruct (Z.eq_dec n 0) as [->|Hnz]; [cbn; lia|].
             apply Z.lt_le_trans with 63; [|lia]. apply Z.log2_lt_pow2; lia. }
      assert (Z.testbit w (i - 31) = Z.testbit (zigzag n) (i - 31)) as B
        by (unfold w; apply Z.mod_pow2_bits_low; lia).
      unfold zigzag in B. rewrite Z.lxor_spec, wrap_s_bits in B by lia.
      rewrite Z.shiftr_spec in B by lia. replace (i - 31 + 31) with i in B by lia.
      assert (Z.testbit w (i - 31) = xorb (Z.testbit (Z.shiftl n 1) (i - 31)) (n <? 0)) as B2.
      { rewrite Ew. rewrite Z.shiftl_mul_pow2 by lia. change (2 ^ 1) with 2.
        destruct (n <? 0) eqn:E2.
        - replace (- 2 * n - 1) with (Z.lnot (n * 2)) by (unfold Z.lnot; lia).
          rewrite Z.lnot_spec by lia. rewrite xorb_true_r. reflexivity.
        - rewrite xorb_false_r. f_equal. lia. }
      rewrite B2 in B.
      destruct (Z.testbit (Z.shiftl n 1) (i - 31)), (n <? 0), (Z.testbit n i); cbn in B; congruence. }
    assert (Z.shiftr n 31 = if n <? 0 then -1 else 0) as S.
    { apply Z.bits_inj'. intros i Hi. rewrite Z.shiftr_spec by lia. rewrite K by lia.
      destruct (n <? 0); [rewrite Z.bits_m1 by lia|rewrite Z.bits_0]; reflexivity. }
    rewrite Z.shiftr_div_pow2 in S by lia. change (2 ^ 31) with 2147483648 in *.
    destruct (n <? 0) eqn:E2; lia.
Qed.

Lemma venc_minus1 f : venc_loop f (-1) = None.
Proof.
  induction f as [|f IH]; [reflexivity|]. cbn [venc_loop].
  change (Z.land (-1) 0xffffff80 =? 0) with false. cbv iota.
  change (Z.shiftr (-1) 7) with (-1). rewrite IH. reflexivity.
Qed.

Lemma varint_diverges f : venc_loop f (zigzag (2 ^ 62 + 2 ^ 40)) = None.
Proof.
  set (z := zigzag _). vm_compute in z. subst z.
  do 10 (destruct f as [|f]; [reflexivity|]).
  cbn [venc_loop]. repeat match goal with
  | |- context [Z.land ?a ?b] => let t := constr:(Z.land a b) in let v := eval vm_compute in t in change t with v
  | |- context [Z.shiftr ?a ?b] => let t := constr:(Z.shiftr a b) in let v := eval vm_compute in t in change t with v
  end. cbn [Z.eqb]. rewrite ?venc_minus1. reflexivity.
Qed.

(** * Codecs *)

Section Codecs.
Context (E : err -> Prop) (EE : E Eof) (EI : E InvalidData).

Definition lawful {A} (c : codec A) (ok : A -> Prop) : Prop :=
  roundtrips c ok /\ size_exact c ok /\ emits_bytes c ok.

Lemma be_enc_length n v : length (be_enc n v) = n.
Proof. induction n as [|m IH]; cbn [be_enc length]; [reflexivity|]. rewrite IH. reflexivity. Qed.
Lemma be_enc_bytes n v : is_bytes (be_enc n v).
Proof.
  induction n as [|m IH]; cbn [be_enc]; [constructor|]. constructor; [|exact IH].
  unfold is_byte. apply Z.mod_pos_bound. lia.
Qed.
Lemma be_val_acc bs : forall a, fold_left (fun a b => a * 256 + b) bs a = a * 256 ^ zlen bs + be_val bs.
Proof.
  induction bs as [|b bs IH]; intros a.
  - cbn. lia.
  - unfold be_val. cbn [fold_left]. rewrite IH, (IH (0 * 256 + b)). rewrite zlen_cons.
    rewrite Z.pow_add_r by (pose proof (zlen_nonneg bs); lia). change (256 ^ 1) with 256. ring.
Qed.
Lemma be_val_cons b bs : be_val (b :: bs) = b * 256 ^ zlen bs + be_val bs.
Proof. unfold be_val at 1. cbn [fold_left]. rewrite be_val_acc. lia. Qed.
Lemma be_val_enc n v : be_val (be_enc n v) = v mod 256 ^ Z.of_nat n.
Proof.
  induction n as [|m IH].
  - cbn [be_enc]. change (256 ^ Z.of_nat 0) with 1. rewrite Z.mod_1_r. reflexivity.
  - cbn [be_enc]. rewrite be_val_cons, IH. unfold zlen. rewrite be_enc_length.
    replace (256 ^ Z.of_nat (S m)) with (256 ^ Z.of_nat m * 256).
    + rewrite Z.rem_mul_r by (try apply Z.pow_nonzero; lia). ring.
    + rewrite Nat2Z.inj_succ, Z.pow_succ_r by lia. ring.
Qed.
Lemma pow256 n : 256 ^ Z.of_nat n = 2 ^ (8 * Z.of_nat n).
Proof. rewrite Z.pow_mul_r by lia. reflexivity. Qed.

Lemma take_bytes_app n a b : length a = n -> take_bytes n (a ++ b) = Ok (a, b).
Proof.
  intros H. unfold take_bytes. rewrite app_length.
  replace (length a + length b <? n)%nat with false by lia.
  rewrite firstn_app_n, skipn_app_n by assumption. reflexivity.
Qed.
Lemma take_bytes_short n a : (length a < n)%nat -> take_bytes n a = Err Eof.
Proof. intros H. unfold take_bytes. replace (length a <? n)%nat with true by lia. reflexivity. Qed.

Lemma u_lawful n : lawful (u_codec n) (in_u (8 * Z.of_nat n)).
Proof.
  split; [|split].
  - intros a rest Ha. cbn [c_dec c_enc u_codec]. rewrite take_bytes_app by apply be_enc_length.
    cbn [bind]. rewrite be_val_enc, pow256. rewrite Z.mod_small by exact Ha. reflexivity.
  - intros a _. cbn. unfold zlen. rewrite be_enc_length. reflexivity.
  - intros a _. cbn. apply be_enc_bytes.
Qed.
Lemma s_lawful n : (0 < n)%nat -> lawful (s_codec n) (in_s (8 * Z.of_nat n)).
Proof.
  intros Hn. split; [|split].
  - intros a rest Ha. cbn [c_dec c_enc s_codec]. rewrite take_bytes_app by apply be_enc_length.
    cbn [bind]. rewrite be_val_enc, pow256. rewrite wrap_s_mod, wrap_s_id by (assumption || lia). reflexivity.
  - intros a _. cbn. unfold zlen. rewrite be_enc_length. reflexivity.
  - intros a _. cbn. apply be_enc_bytes.
Qed.
Lemma u_trunc n ok : truncation_yields E (u_codec n) ok.
Proof.
  intros a k _ Hk. exists Eof. split; [exact EE|]. cbn [c_dec c_enc u_codec] in *. rewrite take_bytes_short; [reflexivity|].
  rewrite firstn_length. rewrite be_enc_length in *. lia.
Qed.
Lemma s_trunc n ok : truncation_yields E (s_codec n) ok.
Proof.
  intros a k _ Hk. exists Eof. split; [exact EE|]. cbn [c_dec c_enc s_codec] in *. rewrite take_bytes_short; [reflexivity|].
  rewrite firstn_length. rewrite be_enc_length in *. lia.
Qed.

Lemma int_lawful k : lawful (int_codec k) (int_ok k).
Proof.
  destruct k; cbn [int_codec int_ok];
    first [apply (u_lawful 1)|apply (u_lawful 2)|apply (u_lawful 4)|apply (u_lawful 8)
          |apply (s_lawful 1); lia|apply (s_lawful 2); lia|apply (s_lawful 4); lia|apply (s_lawful 8); lia].
Qed.
Lemma int_trunc k ok : truncation_yields E (int_codec k) ok.
Proof. destruct k; first [apply u_trunc|apply s_trunc]. Qed.

Lemma bool_lawful ok : lawful bool_codec ok.
Proof.
  split; [|split]; intros [|]; intros; try reflexivity; cbn; repeat constructor; unfold is_byte; lia.
Qed.
Lemma bool_trunc ok : truncation_yields E bool_codec ok.
Proof. intros a k _ Hk. cbn [c_enc bool_codec length] in Hk. replace k with 0%nat by lia. exists Eof. split; [exact EE|reflexivity]. Qed.

Lemma varint_lawful : lawful varint_codec (in_s 32).
Proof.
  split; [|split].
  - intros a rest Ha. apply varint_laws. exact Ha.
  - intros a Ha. apply varint_laws. exact Ha.
  - intros a Ha. apply varint_laws. exact Ha.
Qed.
Lemma varint_trunc : truncation_yields E varint_codec (in_s 32).
Proof. intros a k Ha Hk. exists Eof. split; [exact EE|]. apply varint_laws; assumption. Qed.

Section Comb.
  Context {A B : Type} (ca : codec A) (cb : codec B) (oka : A -> Prop) (okb : B -> Prop).
  Hypothesis (La : lawful ca oka) (Lb : lawful cb okb).

  Lemma option_lawful : lawful (option_codec ca) (fun o => match o with Some a => oka a | None => True end).
  Proof.
    destruct La as (R & S & By). split; [|split].
    - intros [a|] rest Ha; cbn [c_enc c_dec option_codec bool_codec app].
      + change (1 =? 0) with false. change (1 =? 1) with true. cbv iota. cbn [bind].
        rewrite R by assumption. reflexivity.
      + reflexivity.
    - intros [a|] Ha; cbn [c_enc c_size option_codec bool_codec app]; [|reflexivity].
      rewrite zlen_cons, S by assumption. lia.
    - intros [a|] Ha; cbn [c_enc option_codec bool_codec app]; constructor; unfold is_byte; try lia;
        [apply By; assumption|constructor].
  Qed.
  Lemma option_trunc : truncation_yields E ca oka ->
    truncation_yields E (option_codec ca) (fun o => match o with Some a => oka a | None => True end).
  Proof.
    intros T [a|] k Ha Hk; cbn [c_enc c_dec option_codec bool_codec app length] in *.
    - destruct k as [|k]; [exists Eof; split; [exact EE|reflexivity]|]. cbn [firstn].
      change (1 =? 0) with false. change (1 =? 1) with true. cbv iota. cbn [bind].
      destruct (T a k Ha ltac:(lia)) as (e & He & ->); exists e; auto.
    - replace k with 0%nat by lia. exists Eof. split; [exact EE|reflexivity].
  Qed.

  Lemma pair_lawful : lawful (pair_codec ca cb) (fun p => oka (fst p) /\ okb (snd p)).
  Proof.
    destruct La as (R & S & By), Lb as (R' & S' & By'). split; [|split].
    - intros [a b] rest [Ha Hb]; cbn [c_enc c_dec pair_codec fst snd] in *.
      rewrite <- app_assoc, R by assumption. cbn [bind]. rewrite R' by assumption. reflexivity.
    - intros [a b] [Ha Hb]; cbn [c_enc c_size pair_codec fst snd] in *.
      rewrite zlen_app, S, S' by assumption. reflexivity.
    - intros [a b] [Ha Hb]; cbn [c_enc pair_codec fst snd] in *. apply is_bytes_app. auto.
  Qed.
  Lemma pair_trunc : truncation_yields E ca oka -> truncation_yields E cb okb ->
    truncation_yields E (pair_codec ca cb) (fun p => oka (fst p) /\ okb (snd p)).
  Proof.
    destruct La as (R & S & By). intros T T' [a b] k [Ha Hb] Hk;
      cbn [c_enc c_dec pair_codec fst snd] in *. rewrite app_length in Hk.
    destruct (Nat.lt_ge_cases k (length (c_enc ca a))) as [Hlt|Hge].
    - rewrite firstn_app_le by lia. destruct (T a k Ha Hlt) as (e & He & ->); exists e; auto.
    - rewrite firstn_app_ge by lia. rewrite R by assumption. cbn [bind].
      destruct (T' b (k - length (c_enc ca a))%nat Hb ltac:(lia)) as (e & He & ->); exists e; auto.
  Qed.

  Lemma dec_times_flat l rest : Forall oka l ->
    dec_times (c_dec ca) (length l) (flat_map (c_enc ca) l ++ rest) = Ok (l, rest).
  Proof.
    destruct La as (R & _). induction l as [|a l IH]; intros H; [reflexivity|].
    apply Forall_cons_iff in H as [Ha Hl].
    cbn [length dec_times flat_map]. rewrite <- app_assoc, R by assumption. cbn [bind].
    rewrite IH by assumption. reflexivity.
  Qed.
  Lemma dec_times_trunc l : truncation_yields E ca oka -> Forall oka l ->
    forall k, (k < length (flat_map (c_enc ca) l))%nat ->
    exists e, E e /\ dec_times (c_dec ca) (length l) (firstn k (flat_map (c_enc ca) l)) = Err e.
  Proof.
    destruct La as (R & _). intros T. induction l as [|a l IH]; intros H k Hk; [cbn in Hk; lia|].
    apply Forall_cons_iff in H as [Ha Hl]. cbn [length dec_times flat_map] in *. rewrite app_length in Hk.
    destruct (Nat.lt_ge_cases k (length (c_enc ca a))) as [Hlt|Hge].
    - rewrite firstn_app_le by lia. destruct (T a k Ha Hlt) as (e & He & ->); exists e; auto.
    - rewrite firstn_app_ge by lia. rewrite R by assumption. cbn [bind].
      destruct (IH Hl (k - length (c_enc ca a))%nat ltac:(lia)) as (e & He & ->); exists e; auto.
  Qed.
  Lemma flat_size l : Forall oka l -> forall s,
    fold_left (fun s a => s + c_size ca a) l s = s + zlen (flat_map (c_enc ca) l).
  Proof.
    destruct La as (_ & S & _). induction l as [|a l IH]; intros H s; cbn [fold_left flat_map].
    - rewrite zlen_nil. lia.
    - apply Forall_cons_iff in H as [Ha Hl]. rewrite IH, zlen_app, S by assumption. lia.
  Qed.
  Lemma flat_bytes l : Forall oka l -> is_bytes (flat_map (c_enc ca) l).
  Proof.
    destruct La as (_ & _ & By). induction l as [|a l IH]; intros H; cbn [flat_map]; [constructor|].
    apply Forall_cons_iff in H as [Ha Hl]. apply is_bytes_app. auto.
  Qed.

  Lemma vec_lawful : lawful (vec_codec ca) (fun l => Forall oka l /\ zlen l < 2 ^ 31).
  Proof.
    split; [|split].
    - intros l rest [Hl Hz]. cbn [c_dec c_enc vec_codec]. unfold vec_dec, vec_enc.
      pose proof (zlen_nonneg l) as H0.
      assert (in_u 32 (zlen l)) as Hu by (unfold in_u; change (2^32) with 4294967296; change (2^31) with 2147483648 in Hz; lia).
      rewrite wrap_u_id by assumption. rewrite <- app_assoc.
      destruct (s_lawful 4 ltac:(lia)) as (R & _).
      change (be_enc 4 (zlen l)) with (c_enc i32_codec (zlen l)). unfold i32_codec. rewrite R.
      2: { unfold in_s. change (2 ^ (8 * Z.of_nat 4 - 1)) with (2 ^ 31). lia. }
      cbn [bind]. destruct (zlen l <? 1) eqn:Q.
      + destruct l; [reflexivity|]. rewrite zlen_cons in Q. pose proof (zlen_nonneg l). lia.
      + unfold zlen. rewrite Nat2Z.id. apply dec_times_flat. assumption.
    - intros l [Hl Hz]. cbn [c_size c_enc vec_codec]. unfold vec_size, vec_enc.
      rewrite flat_size, zlen_app by assumption. unfold zlen at 2. rewrite be_enc_length. reflexivity.
    - intros l [Hl Hz]. apply is_bytes_app. split; [apply be_enc_bytes|apply flat_bytes; assumption].
  Qed.
  Lemma vec_trunc : truncation_yields E ca oka ->
    truncation_yields E (vec_codec ca) (fun l => Forall oka l /\ zlen l < 2 ^ 31).
  Proof.
    intros T l k [Hl Hz] Hk. cbn [c_dec c_enc vec_codec] in *. unfold vec_dec, vec_enc in *.
    pose proof (zlen_nonneg l) as H0. rewrite app_length, be_enc_length in Hk.
    assert (in_u 32 (zlen l)) as Hu by (unfold in_u; change (2^32) with 4294967296; change (2^31) with 2147483648 in Hz; lia).
    rewrite wrap_u_id in * by assumption.
    change (be_enc 4 (zlen l)) with (c_enc i32_codec (zlen l)) in *.
    destruct (Nat.lt_ge_cases k 4) as [Hlt|Hge].
    - rewrite firstn_app_le by (cbn [c_enc i32_codec s_codec]; rewrite be_enc_length; lia).
      destruct (s_trunc 4 (fun _ => True) (zlen l) k I) as (e & He & H); [cbn [c_enc s_codec]; rewrite be_enc_length; lia|];
        unfold i32_codec; rewrite H; exists e; auto.
    - rewrite firstn_app_ge by (cbn [c_enc i32_codec s_codec]; rewrite be_enc_length; lia).
      cbn [c_enc i32_codec s_codec]. rewrite be_enc_length. change (be_enc 4 (zlen l)) with (c_enc i32_codec (zlen l)).
      destruct (s_lawful 4 ltac:(lia)) as (R & _). unfold i32_codec. rewrite R.
      2: { unfold in_s. change (2 ^ (8 * Z.of_nat 4 - 1)) with (2 ^ 31). lia. }
      cbn [bind]. destruct (zlen l <? 1) eqn:Q.
      + destruct l; [cbn in Hk; lia|]. rewrite zlen_cons in Q. pose proof (zlen_nonneg l). lia.
      + unfold zlen. rewrite Nat2Z.id. apply dec_times_trunc; (assumption || lia).
  Qed.
End Comb.

(** ** Strings *)

Lemma utf8_bytes : forall n s, (length s <= n)%nat -> utf8_valid s = true -> is_bytes s.
Proof.
  induction n as [|n IH]; intros s Hn H; [destruct s; [constructor|cbn in Hn; lia]|].
  destruct s as [|b0 r]; [constructor|]. cbn [utf8_valid] in H. cbn [length] in Hn.
  destruct (rng 0 b0 0x7F) eqn:R0.
  { unfold rng in R0. constructor; [unfold is_byte; lia|]. apply IH; [lia|assumption]. }
  destruct (rng 0xC2 b0 0xDF) eqn:R1.
  { destruct r as [|b1 r1]; [discriminate|]. apply andb_true_iff in H as [H1 H2]. cbn [length] in Hn.
    unfold rng, cont in *. repeat constructor; unfold is_byte; try lia. apply IH; [lia|assumption]. }
  destruct (rng 0xE0 b0 0xEF) eqn:R2.
  { destruct r as [|b1 [|b2 r2]]; try discriminate. apply andb_true_iff in H as [H1 H2].
    apply andb_true_iff in H1 as [H1 H3]. cbn [length] in Hn.
    assert (0 <= b1 < 256).
    { destruct (b0 =? 0xE0); [unfold rng in H1; lia|]. destruct (b0 =? 0xED); unfold rng, cont in H1; lia. }
    unfold rng, cont in R2, H3. repeat constructor; unfold is_byte; try lia. apply IH; [lia|assumption]. }
  destruct (rng 0xF0 b0 0xF4) eqn:R3; [|discriminate].
  destruct r as [|b1 [|b2 [|b3 r3]]]; try discriminate. apply andb_true_iff in H as [H1 H2].
  apply andb_true_iff in H1 as [H1 H4]. apply andb_true_iff in H1 as [H1 H3]. cbn [length] in Hn.
  assert (0 <= b1 < 256).
  { destruct (b0 =? 0xF0); [unfold rng in H1; lia|]. destruct (b0 =? 0xF4); unfold rng, cont in H1; lia. }
  unfold rng, cont in R3, H3, H4. repeat constructor; unfold is_byte; try lia. apply IH; [lia|assumption].
Qed.

Lemma str_prefix_dec s rest : str_ok s ->
  string_dec (be_enc 2 (zlen s) ++ rest) =
  if zlen s <=? 0 then Ok ([], rest)
  else if negb (utf8_valid (firstn (length s) rest)) then Err InvalidData
       else if zlen (firstn (length s) rest) =? zlen s then Ok (firstn (length s) rest, skipn (length s) rest) else Err Eof.
Proof.
  intros [Hu Hl]. unfold string_dec. change (be_enc 2 (zlen s)) with (c_enc i16_codec (zlen s)).
  destruct (s_lawful 2 ltac:(lia)) as (R & _). unfold i16_codec. rewrite R.
  2: { unfold in_s. change (2 ^ (8 * Z.of_nat 2 - 1)) with (2 ^ 15). pose proof (zlen_nonneg s). lia. }
  cbn [bind]. replace (Z.to_nat (zlen s)) with (length s) by (unfold zlen; lia). reflexivity.
Qed.

Lemma str_wrap s : str_ok s -> wrap_u 16 (zlen s) = zlen s.
Proof.
  intros [_ Hl]. apply wrap_u_id. unfold in_u. pose proof (zlen_nonneg s). change (2^15) with 32768 in Hl.
  change (2^16) with 65536. lia.
Qed.

Lemma string_lawful : lawful string_codec str_ok.
Proof.
  split; [|split].
  - intros s rest Hs. cbn [c_dec c_enc string_codec]. rewrite str_wrap by assumption.
    rewrite <- app_assoc, str_prefix_dec by assumption.
    rewrite firstn_app_exact, skipn_app_exact. rewrite Z.eqb_refl. destruct Hs as [-> _]. cbn [negb].
    destruct (zlen s <=? 0) eqn:Q; [|reflexivity].
    destruct s; [reflexivity|]. rewrite zlen_cons in Q. pose proof (zlen_nonneg s). lia.
  - intros s Hs. cbn [c_size c_enc string_codec]. rewrite zlen_app. unfold zlen at 2. rewrite be_enc_length. reflexivity.
  - intros s [Hu _]. cbn [c_enc string_codec]. apply is_bytes_app. split; [apply be_enc_bytes|].
    apply (utf8_bytes (length s)); [lia|assumption].
Qed.
Lemma string_trunc : truncation_yields E string_codec str_ok.
Proof.
  intros s k Hs Hk. cbn [c_dec c_enc string_codec] in *. rewrite app_length, be_enc_length in Hk.
  rewrite str_wrap by assumption.
  destruct (Nat.lt_ge_cases k 2) as [Hlt|Hge].
  - rewrite firstn_app_le by (rewrite be_enc_length; lia). exists Eof. split; [exact EE|]. unfold string_dec.
    cbn [c_dec i16_codec s_codec]. rewrite take_bytes_short; [reflexivity|].
    rewrite firstn_length, be_enc_length. lia.
  - rewrite firstn_app_ge by (rewrite be_enc_length; lia). rewrite be_enc_length.
    rewrite str_prefix_dec by assumption. rewrite firstn_firstn.
    replace (Nat.min (length s) (k - 2)) with (k - 2)%nat by lia.
    assert (length (firstn (k - 2) s) = k - 2)%nat as L by (rewrite firstn_length; lia).
    destruct (zlen s <=? 0) eqn:Q; [unfold zlen in Q; lia|].
    destruct (negb _); [exists InvalidData; split; [exact EI|reflexivity]|]. exists Eof. split; [exact EE|].
    replace (zlen (firstn (k - 2) s) =? zlen s) with false; [reflexivity|].
    unfold zlen. rewrite L. lia.
Qed.

(** ** Byte buffers and durations *)

Lemma bytebuf_lawful : lawful bytebuf_codec buf_ok.
Proof.
  split; [|split].
  - intros s rest [Hb Hl]. pose proof (zlen_nonneg s) as H0. cbn [c_dec c_enc bytebuf_codec].
    rewrite wrap_u_id by (unfold in_u; lia). rewrite <- app_assoc.
    change (be_enc 4 (zlen s)) with (c_enc u32_codec (zlen s)).
    destruct (u_lawful 4) as (R & _). unfold u32_codec. rewrite R.
    2: { unfold in_u. change (8 * Z.of_nat 4) with 32. lia. }
    cbn [bind]. destruct (zlen s <? 1) eqn:Q.
    + destruct s; [reflexivity|]. rewrite zlen_cons in Q. pose proof (zlen_nonneg s). lia.
    + rewrite zlen_app. replace (zlen s + zlen rest <? zlen s) with false by (pose proof (zlen_nonneg rest); lia).
      unfold zlen. rewrite Nat2Z.id, firstn_app_exact, skipn_app_exact. reflexivity.
  - intros s Hs. cbn [c_size c_enc bytebuf_codec]. rewrite zlen_app. unfold zlen at 2. rewrite be_enc_length. reflexivity.
  - intros s [Hb _]. cbn [c_enc bytebuf_codec]. apply is_bytes_app. split; [apply be_enc_bytes|assumption].
Qed.

Lemma bytebuf_trunc : E Panic -> truncation_yields E bytebuf_codec buf_ok.
Proof.
  intros EP s k [Hb Hl] Hk. pose proof (zlen_nonneg s) as H0. cbn [c_dec c_enc bytebuf_codec] in *.
  rewrite app_length, be_enc_length in Hk. rewrite wrap_u_id by (unfold in_u; lia).
  destruct (Nat.lt_ge_cases k 4) as [Hlt|Hge].
  - rewrite firstn_app_le by (rewrite be_enc_length; lia). exists Eof. split; [exact EE|].
    cbn [c_dec u32_codec u_codec]. rewrite take_bytes_short; [reflexivity|].
    rewrite firstn_length, be_enc_length. lia.
  - rewrite firstn_app_ge by (rewrite be_enc_length; lia). rewrite be_enc_length.
    change (be_enc 4 (zlen s)) with (c_enc u32_codec (zlen s)).
    destruct (u_lawful 4) as (R & _). unfold u32_codec. rewrite R.
    2: { unfold in_u. change (8 * Z.of_nat 4) with 32. lia. }
    cbn [bind]. exists Panic. split; [exact EP|].
    assert (length (firstn (k - 4) s) = k - 4)%nat as L by (rewrite firstn_length; lia).
    unfold zlen in *. rewrite L.
    replace (Z.of_nat (length s) <? 1) with false by lia.
    replace (Z.of_nat (k - 4) <? Z.of_nat (length s)) with true by lia. reflexivity.
Qed.

Lemma duration_lawful : lawful duration_codec dur_ok.
Proof.
  split; [|split].
  - intros [s n] rest [Hs Hn]. cbn [c_dec c_enc duration_codec fst snd] in *.
    rewrite take_bytes_app by (rewrite app_length, !be_enc_length; reflexivity). cbn [bind].
    rewrite firstn_app_n, skipn_app_n by apply be_enc_length. rewrite !be_val_enc.
    rewrite !pow256. change (8 * Z.of_nat 8) with 64. change (8 * Z.of_nat 4) with 32.
    unfold in_u in Hs. rewrite Z.mod_small by assumption.
    change (10 ^ 9) with 1000000000 in Hn. rewrite (Z.mod_small n) by (change (2 ^ 32) with 4294967296; lia).
    unfold duration_new. rewrite Z.div_small, Z.mod_small by lia.
    replace (2 ^ 64 <=? s + 0) with false by lia. cbn [bind]. rewrite Z.add_0_r. reflexivity.
  - intros [s n] _. cbn [c_enc c_size duration_codec fst snd]. unfold zlen. rewrite app_length, !be_enc_length. reflexivity.
  - intros [s n] _. cbn [c_enc duration_codec fst snd]. apply is_bytes_app. split; apply be_enc_bytes.
Qed.
Lemma duration_trunc ok : truncation_yields E duration_codec ok.
Proof.
  intros [s n] k _ Hk. exists Eof. split; [exact EE|]. cbn [c_dec c_enc duration_codec fst snd] in *.
  rewrite app_length, !be_enc_length in Hk. rewrite take_bytes_short; [reflexivity|].
  rewrite firstn_length, app_length, !be_enc_length. lia.
Qed.

(** ** Maps *)

Lemma bytes_compare_anti a : forall b, bytes_compare a b = Lt -> bytes_compare b a = Gt.
Proof.
  induction a as [|x a IH]; intros [|y b] H; cbn in *; try congruence.
  rewrite (Z.compare_antisym x y). destruct (x ?= y) eqn:Q; cbn; try congruence. apply IH; assumption.
Qed.
Lemma kcompare_anti k a b : kcompare k a b = Lt -> kcompare k b a = Gt.
Proof.
  destruct k; cbn [kcompare kval] in *.
  - intros H. rewrite Z.compare_antisym, H. reflexivity.
  - apply bytes_compare_anti.
Qed.

Section MapLaws.
  Context {K V : Type} (cmp : K -> K -> comparison).
  Hypothesis anti : forall a b, cmp a b = Lt -> cmp b a = Gt.

  Lemma map_insert_last k (v : V) m :
    (forall k', In k' (map fst m) -> cmp k' k = Lt) -> map_insert cmp k v m = m ++ [(k, v)].
  Proof.
    induction m as [|[k' v'] m IH]; intros H; [reflexivity|]. cbn [map_insert app].
    rewrite (anti k' k) by (apply H; left; reflexivity). rewrite IH; [reflexivity|].
    intros k'' Hin. apply H. right. assumption.
  Qed.
  Lemma ascending_app_last (l : list K) l' : ascending cmp (l ++ l') ->
    forall a b, In a l -> In b l' -> cmp a b = Lt.
  Proof.
    induction l as [|x l IH]; intros H a b Ha Hb; [contradiction|].
    cbn [ascending app] in H. destruct H as [H1 H2]. destruct Ha as [->|Ha].
    - apply H1. apply in_or_app. auto.
    - apply IH; assumption.
  Qed.
  Lemma map_rebuild (es : list (K * V)) : forall m, ascending cmp (map fst (m ++ es)) ->
    fold_left (fun m e => map_insert cmp (fst e) (snd e) m) es m = m ++ es.
  Proof.
    induction es as [|[k v] es IH]; intros m H; [symmetry; apply app_nil_r|].
    cbn [fold_left fst snd]. rewrite map_insert_last.
    - rewrite IH; rewrite <- app_assoc; [reflexivity|assumption].
    - intros k' Hin. rewrite map_app in H. cbn [map fst] in H.
      eapply ascending_app_last; [exact H|exact Hin|left; reflexivity].
  Qed.
End MapLaws.

Section MapCodec.
  Context {K V : Type} (cmp : K -> K -> comparison) (ck : codec K) (cv : codec V) (okk : K -> Prop) (okv : V -> Prop).
  Hypothesis anti : forall a b, cmp a b = Lt -> cmp b a = Gt.
  Hypothesis (Lk : lawful ck okk) (Lv : lawful cv okv).
  Let okm (m : list (K * V)) := Forall (fun e => okk (fst e) /\ okv (snd e)) m
                         /\ ascending cmp (map fst m) /\ zlen m < 2 ^ 16.

  Lemma map_lawful : lawful (map_codec cmp ck cv) okm.
  Proof.
    pose proof (pair_lawful _ _ _ _ Lk Lv) as LP. split; [|split].
    - intros m rest (Hm & Hasc & Hlen). cbn [c_dec c_enc map_codec]. pose proof (zlen_nonneg m) as H0.
      rewrite wrap_u_id by (unfold in_u; lia). rewrite <- app_assoc.
      change (be_enc 2 (zlen m)) with (c_enc u16_codec (zlen m)).
      destruct (u_lawful 2) as (R & _). unfold u16_codec. rewrite R.
      2: { unfold in_u. change (8 * Z.of_nat 2) with 16. lia. }
      cbn [bind]. unfold zlen. rewrite Nat2Z.id. erewrite dec_times_flat; [|exact LP|exact Hm].
      cbn [bind]. rewrite map_rebuild by assumption. reflexivity.
    - intros m (Hm & _). cbn [c_size c_enc map_codec]. rewrite zlen_app. unfold zlen at 1. rewrite be_enc_length.
      pose proof (flat_size _ _ LP m Hm 2) as Q. cbn [c_size pair_codec] in Q.
      change (Z.of_nat 2) with 2. rewrite <- Q. clear.
      generalize 2 as s. induction m as [|e m IH]; intros s; cbn [fold_left]; [reflexivity|].
      rewrite IH. f_equal. lia.
    - intros m (Hm & _). cbn [c_enc map_codec]. apply is_bytes_app. split; [apply be_enc_bytes|].
      eapply flat_bytes; [exact LP|exact Hm].
  Qed.
  Lemma map_trunc : truncation_yields E ck okk -> truncation_yields E cv okv ->
    truncation_yields E (map_codec cmp ck cv) okm.
  Proof.
    pose proof (pair_lawful _ _ _ _ Lk Lv) as LP. intros Tk Tv m k (Hm & Hasc & Hlen) Hk.
    pose proof (pair_trunc _ _ _ _ Lk Tk Tv) as TP. pose proof (zlen_nonneg m) as H0.
    cbn [c_dec c_enc map_codec] in *. rewrite app_length, be_enc_length in Hk.
    rewrite wrap_u_id in * by (unfold in_u; lia).
    destruct (Nat.lt_ge_cases k 2) as [Hlt|Hge].
    - rewrite firstn_app_le by (rewrite be_enc_length; lia). exists Eof. split; [exact EE|].
      cbn [c_dec u16_codec u_codec]. rewrite take_bytes_short; [reflexivity|].
      rewrite firstn_length, be_enc_length. lia.
    - rewrite firstn_app_ge by (rewrite be_enc_length; lia). rewrite be_enc_length.
      change (be_enc 2 (zlen m)) with (c_enc u16_codec (zlen m)).
      destruct (u_lawful 2) as (R & _). unfold u16_codec. rewrite R.
      2: { unfold in_u. change (8 * Z.of_nat 2) with 16. lia. }
      cbn [bind]. unfold zlen. rewrite Nat2Z.id.
      destruct (dec_times_trunc _ _ LP m TP Hm (k - 2)%nat ltac:(lia)) as (e & He & ->); exists e; auto.
  Qed.
End MapCodec.

(** ** Every composite type *)

Lemma key_lawful k : lawful (kcodec k) (key_ok k).
Proof. destruct k; [apply int_lawful|apply string_lawful]. Qed.
Lemma key_trunc k : truncation_yields E (kcodec k) (key_ok k).
Proof. destruct k; [apply int_trunc|apply string_trunc]. Qed.

Lemma composite_lawful t : lawful (codec_of t) (val_ok t).
Proof.
  induction t as [|k| | | | | |t IH|t IH|k t IH|a IHa b IHb]; cbn [codec_of val_ok val].
  - split; [|split]; intros a **; try reflexivity; [destruct a; reflexivity|constructor].
  - apply int_lawful.
  - apply bool_lawful.
  - apply varint_lawful.
  - apply string_lawful.
  - apply bytebuf_lawful.
  - apply duration_lawful.
  - apply option_lawful. exact IH.
  - apply vec_lawful. exact IH.
  - apply map_lawful; [apply kcompare_anti|apply key_lawful|exact IH].
  - apply pair_lawful; assumption.
Qed.

Lemma composite_trunc t : (no_buf t = true \/ E Panic) -> truncation_yields E (codec_of t) (val_ok t).
Proof.
  intros H. assert (E Panic \/ no_buf t = true) as Hn by tauto. clear H. revert Hn.
  induction t as [|k| | | | | |t IH|t IH|k t IH|a IHa b IHb]; cbn [codec_of val_ok val no_buf]; intros Hn.
  - intros a k _ Hk. cbn in Hk. lia.
  - apply int_trunc.
  - apply bool_trunc.
  - apply varint_trunc.
  - apply string_trunc.
  - destruct Hn as [Hn|Hn]; [apply bytebuf_trunc; exact Hn|discriminate].
  - apply duration_trunc.
  - apply option_trunc. auto.
  - apply vec_trunc; [apply composite_lawful|auto].
  - apply map_trunc; [apply key_lawful|apply composite_lawful|apply key_trunc|auto].
  - rewrite andb_true_iff in Hn. apply pair_trunc; [apply composite_lawful|apply IHa; tauto|apply IHb; tauto].
Qed.
End Codecs.

(** ** Findings *)

Lemma string_roundtrip_iff s : utf8_valid s = true ->
  ((forall rest, c_dec string_codec (c_enc string_codec s ++ rest) = Ok (s, rest)) <-> zlen s < 2 ^ 15).
Proof.
  intros Hu. split.
  - intros H. specialize (H []). destruct (Z.lt_ge_cases (zlen s) (2 ^ 15)) as [|Hge]; [assumption|exfalso].
    cbn [c_dec c_enc string_codec] in H. unfold string_dec in H. rewrite <- app_assoc in H.
    cbn [c_dec i16_codec s_codec] in H. rewrite take_bytes_app in H by apply be_enc_length. cbn [bind] in H.
    set (len := wrap_s _ _) in H.
    assert (in_s 16 len) as Hr by (apply wrap_s_range; cbn; lia).
    unfold in_s in Hr. change (2 ^ (16 - 1)) with (2 ^ 15) in Hr.
    destruct (len <=? 0) eqn:E1.
    + injection H as H _. subst s. rewrite zlen_nil in Hge. lia.
    + destruct (negb _); [discriminate|]. destruct (_ =? len) eqn:E2; [|discriminate].
      injection H as H _. rewrite H in E2. lia.
  - intros Hl rest. apply string_lawful. split; assumption.
Qed.

Lemma varint_roundtrip_refuted : exists n bs m,
  in_s 64 n /\ varint_writes n bs /\ varint_decode bs = Ok (m, []) /\ m <> n.
Proof.
  exists (2 ^ 31), [1], (-1). split; [unfold in_s; lia|]. split; [exists 1%nat; reflexivity|].
  split; [reflexivity|lia].
Qed.
Lemma varint_diverges_refuted : exists n, in_s 64 n /\ forall bs, ~ varint_writes n bs.
Proof.
  exists (2 ^ 62 + 2 ^ 40). split; [unfold in_s; lia|]. intros bs [f H].
  rewrite varint_diverges in H. discriminate.
Qed.
Lemma buffer_truncation_refuted : exists s k,
  buf_ok s /\ (k < length (c_enc bytebuf_codec s))%nat
  /\ c_dec bytebuf_codec (firstn k (c_enc bytebuf_codec s)) = Err Panic.
Proof.
  exists [7; 8], 5%nat. split; [split; [repeat constructor; unfold is_byte; lia|reflexivity]|].
  split; [cbn; lia|reflexivity].
Qed.
Lemma utf8_ascii n : utf8_valid (repeat 97 n) = true.
Proof. induction n as [|n IH]; [reflexivity|]. cbn [repeat utf8_valid]. exact IH. Qed.
Lemma string_roundtrip_refuted : exists s,
  utf8_valid s = true /\ c_dec string_codec (c_enc string_codec s) = Ok ([], s) /\ s <> [].
Proof.
  exists (repeat 97 (Z.to_nat 32768)). split; [apply utf8_ascii|]. split.
  - cbn [c_dec c_enc string_codec]. unfold zlen. rewrite repeat_length.
    replace (wrap_u 16 (Z.of_nat (Z.to_nat 32768))) with 32768 by (rewrite Z2Nat.id by lia; reflexivity).
    generalize (repeat 97 (Z.to_nat 32768)). intros l. reflexivity.
  - replace (Z.to_nat 32768) with (S (Z.to_nat 32767)) by lia. discriminate.
Qed.
