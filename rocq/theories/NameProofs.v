From Verif Require Import Base ListFacts NameModel NameSpec.

Lemma dec_value_app a b : dec_value (a ++ b) = dec_value a * 10 ^ zlen b + dec_value b.
Proof.
  unfold dec_value. rewrite fold_left_app. generalize (fold_left (fun a d => a * 10 + (d - 48)) a 0).
  induction b as [|d b IH] using rev_ind; intros x.
  - cbn. lia.
  - rewrite !fold_left_app, IH. cbn [fold_left]. rewrite zlen_app. change (zlen [d]) with 1.
    rewrite Z.pow_add_r by (try lia; apply zlen_nonneg). lia.
Qed.
Lemma dec_value_range l : Forall is_digit l -> 0 <= dec_value l < 10 ^ zlen l.
Proof.
  induction l as [|d l IH] using rev_ind; intros H; [cbn; lia|].
  apply Forall_app in H as [H Hd]. inversion Hd as [|? ? D _]; subst. specialize (IH H).
  rewrite dec_value_app, zlen_app. change (zlen [d]) with 1.
  rewrite Z.pow_add_r by (try lia; apply zlen_nonneg). unfold is_digit in D. unfold dec_value at 2 4. cbn [fold_left]. lia.
Qed.
Lemma dec_value_cons d l : dec_value (d :: l) = (d - 48) * 10 ^ zlen l + dec_value l.
Proof. change (d :: l) with ([d] ++ l). rewrite dec_value_app. unfold dec_value at 1. cbn [fold_left]. lia. Qed.

(** the parser computes the value, exactly for digits below the bound *)
Lemma parse_digits_spec max l : forall acc n, 0 <= acc <= max ->
  (parse_digits max acc l = Some n <-> Forall is_digit l /\ n = acc * 10 ^ zlen l + dec_value l /\ n <= max).
Proof.
  induction l as [|d l IH]; intros acc n Ha.
  - cbn. split; [intros [= <-]; repeat split; auto; lia|intros (_ & -> & _); f_equal; lia].
  - cbn [parse_digits]. cbv zeta. pose proof (zlen_nonneg l) as H0.
    assert (10 ^ zlen (d :: l) = 10 * 10 ^ zlen l) as -> by (rewrite zlen_cons; rewrite <- Z.pow_succ_r by lia; f_equal; lia).
    rewrite dec_value_cons. assert (0 < 10 ^ zlen l) as Hp by (apply Z.pow_pos_nonneg; lia).
    destruct ((48 <=? d) && (d <=? 57)) eqn:E.
    + assert (is_digit d) as Hd by (unfold is_digit; lia). unfold is_digit in Hd.
      set (a := acc * 10 + (d - 48)). destruct (a <=? max) eqn:Em.
      * rewrite IH by (unfold a; lia). split.
        -- intros (HF & -> & Hm). repeat split; auto; unfold a in *; nia.
        -- intros (HF & -> & Hm). inversion HF; subst. repeat split; auto; unfold a in *; nia.
      * split; [discriminate|]. intros (HF & -> & Hm). exfalso. inversion HF as [|? ? D F]; subst.
        pose proof (dec_value_range l F). unfold a in Em. nia.
    + split; [discriminate|]. intros (HF & _). inversion HF as [|? ? D F]; subst. unfold is_digit in D. lia.
Qed.

Lemma parse_unsigned_spec max s n : 0 <= max -> (parse_unsigned max s = Some n <-> numeral s n /\ n <= max).
Proof.
  intros Hm. pose proof (fun l => parse_digits_spec max l 0 n ltac:(lia)) as P.
  assert (forall ds, ds <> [] -> (parse_digits max 0 ds = Some n <-> Forall is_digit ds /\ dec_value ds = n /\ n <= max)) as P2.
  { intros ds _. rewrite P. rewrite Z.mul_0_l, Z.add_0_l. intuition congruence. }
  destruct s as [|c s].
  - cbn. split; [discriminate|]. intros ((ds & [E|E] & Hn & _) & _); [congruence|discriminate E].
  - destruct (Z.eq_dec c 43) as [->|Hne].
    + assert (parse_unsigned max (43 :: s) = match s with [] => None | _ => parse_digits max 0 s end) as -> by (destruct s; reflexivity).
      split.
      * intros H. destruct s as [|d s]; [discriminate|]. apply P2 in H; [|discriminate]. destruct H as (F & V & B).
        split; [|exact B]. exists (d :: s). repeat split; auto; discriminate.
      * intros ((ds & E & Hn & F & V) & B). destruct E as [E|E].
        -- subst ds. inversion F as [|? ? D _]. unfold is_digit in D. lia.
        -- injection E as ->. destruct ds as [|d ds]; [congruence|]. apply P2; [discriminate|]. auto.
    + assert (parse_unsigned max (c :: s) = parse_digits max 0 (c :: s)) as ->.
      { unfold parse_unsigned. destruct c as [|p|p]; try reflexivity.
        do 6 (destruct p as [p|p|]; try reflexivity). exfalso. apply Hne. reflexivity. }
      rewrite P2 by discriminate. split.
      * intros (F & V & B). split; [|exact B]. exists (c :: s). repeat split; auto. discriminate.
      * intros ((ds & E & Hn & F & V) & B). destruct E as [E|E]; [|injection E as E _; congruence].
        subst ds. auto.
Qed.

(** printing *)
Lemma dec_digits_spec fuel : forall n, 0 <= n < 10 ^ Z.of_nat fuel ->
  Forall is_digit (dec_digits fuel n) /\ dec_value (dec_digits fuel n) = n
  /\ (length (dec_digits fuel n) <= fuel)%nat /\ ((0 < fuel)%nat -> dec_digits fuel n <> []).
Proof.
  induction fuel as [|f IH]; intros n H; [cbn in H; split; [constructor|split; [cbn; lia|split; [cbn; lia|lia]]]|].
  cbn [dec_digits]. destruct (n <? 10) eqn:E.
  - split; [constructor; [unfold is_digit; lia|constructor]|]. split; [unfold dec_value; cbn [fold_left]; lia|].
    split; [cbn [length]; lia|discriminate].
  - rewrite Nat2Z.inj_succ, Z.pow_succ_r in H by lia.
    destruct (IH (n / 10) ltac:(lia)) as (F & V & L & _).
    split; [|split; [|split]].
    + apply Forall_app. split; [exact F|]. constructor; [unfold is_digit; lia|constructor].
    + rewrite dec_value_app, V. change (zlen [48 + n mod 10]) with 1. unfold dec_value. cbn [fold_left]. lia.
    + rewrite app_length. cbn. lia.
    + intros _ Q. apply app_eq_nil in Q as [_ Q]. discriminate.
Qed.
Lemma print_dec_spec n : 0 <= n < 10 ^ 20 ->
  Forall is_digit (print_dec n) /\ dec_value (print_dec n) = n /\ (length (print_dec n) <= 20)%nat /\ print_dec n <> [].
Proof.
  intros H. unfold print_dec. destruct (dec_digits_spec 20 n H) as (A & B & C & D).
  repeat split; auto. apply D. lia.
Qed.
Lemma digits_no_dash l : Forall is_digit l -> no_dash l.
Proof. intros H Hin. rewrite Forall_forall in H. specialize (H _ Hin). unfold is_digit in H. lia. Qed.

Lemma split_last_spec c s a b : split_last c s = Some (a, b) <-> s = a ++ [c] ++ b /\ ~ In c b.
Proof.
  revert a b. induction s as [|x s IH]; intros a b; cbn [split_last].
  - split; [discriminate|]. intros [H _]. destruct a; discriminate.
  - destruct (split_last c s) as [[a' b']|] eqn:E.
    + split.
      * intros [= <- <-]. destruct (proj1 (IH a' b') eq_refl) as [-> H]. split; [reflexivity|exact H].
      * intros [H1 H2]. destruct a as [|y a].
        -- cbn in H1. injection H1 as -> ->. exfalso. destruct (proj1 (IH a' b') eq_refl) as [-> _].
           apply H2. apply in_or_app. right. left. reflexivity.
        -- cbn in H1. injection H1 as -> ->. pose proof (proj2 (IH a b) (conj eq_refl H2)) as Q. injection Q as -> ->. reflexivity.
    + assert (forall a b, s = a ++ [c] ++ b -> False) as N.
      { clear -E IH. intros a b H.
        assert (exists a b, s = a ++ [c] ++ b /\ ~ In c b) as (a1 & b1 & Q).
        { subst s. clear IH E. induction b as [|y b IHb] using rev_ind.
          - exists a, []. split; [reflexivity|intros []].
          - destruct (Z.eq_dec y c) as [->|Hy].
            + exists (a ++ [c] ++ b), []. split; [rewrite <- !app_assoc; reflexivity|intros []].
            + destruct IHb as (a1 & b1 & E1 & N1). exists a1, (b1 ++ [y]). split.
              * replace (a ++ [c] ++ b ++ [y]) with ((a ++ [c] ++ b) ++ [y]) by (rewrite <- !app_assoc; reflexivity).
                rewrite E1, <- !app_assoc. reflexivity.
              * intros Hin. apply in_app_or in Hin as [Hin|[Hin|[]]]; auto. }
        apply IH in Q. discriminate. }
      destruct (x =? c) eqn:Ex.
      * apply Z.eqb_eq in Ex. subst x. split.
        -- intros [= <- <-]. split; [reflexivity|]. intros Hin. apply in_split in Hin as (l1 & l2 & Hs). exact (N _ _ Hs).
        -- intros [H1 H2]. destruct a as [|y a]; [cbn in H1; injection H1 as ->; reflexivity|].
           cbn in H1. injection H1 as _ H1. exfalso. exact (N _ _ H1).
      * split; [discriminate|]. intros [H1 H2]. destruct a as [|y a].
        -- cbn in H1. injection H1 as -> _. lia.
        -- cbn in H1. injection H1 as _ H1. exfalso. exact (N _ _ H1).
Qed.

Lemma numeral_no_dash s n : numeral s n -> no_dash s /\ s <> [].
Proof.
  intros (ds & E & Hn & F & _). pose proof (digits_no_dash ds F) as D. destruct E as [->| ->].
  - auto.
  - split; [|discriminate]. intros [H|H]; [lia|exact (D H)].
Qed.

(** C10: the parser accepts exactly topic, dash, numeral below 2^32. *)
Lemma parse_replica_iff s topic n : parse_replica s = Some (topic, n) <->
  exists num, s = topic ++ [45] ++ num /\ numeral num n /\ n < 2 ^ 32.
Proof.
  unfold parse_replica. pose proof (fun num => parse_unsigned_spec (2 ^ 32 - 1) num n ltac:(lia)) as P. split.
  - destruct (split_last 45 s) as [[t idx]|] eqn:E; [|discriminate].
    apply split_last_spec in E as [-> _]. destruct idx as [|c idx]; [discriminate|].
    destruct (parse_unsigned (2 ^ 32 - 1) (c :: idx)) as [m|] eqn:Q; [|discriminate].
    intros [= -> ->]. apply P in Q as [Q1 Q2]. exists (c :: idx). repeat split; auto. lia.
  - intros (num & -> & Hn & Hb). destruct (numeral_no_dash _ _ Hn) as [ND NE].
    rewrite (proj2 (split_last_spec 45 _ topic num) (conj eq_refl ND)).
    destruct num as [|c num]; [congruence|]. rewrite (proj2 (P (c :: num))); [reflexivity|]. split; [exact Hn|lia].
Qed.
Lemma replica_roundtrip topic n : in_u 32 n -> parse_replica (print_replica topic n) = Some (topic, n).
Proof.
  intros H. unfold in_u in H. apply parse_replica_iff. exists (print_dec n). split; [reflexivity|]. split; [|lia].
  destruct (print_dec_spec n) as (A & B & _ & D); [lia|]. exists (print_dec n). auto.
Qed.
Lemma replica_injective t1 n1 t2 n2 : in_u 32 n1 -> in_u 32 n2 ->
  print_replica t1 n1 = print_replica t2 n2 -> t1 = t2 /\ n1 = n2.
Proof.
  intros H1 H2 E. pose proof (replica_roundtrip t1 n1 H1) as R1. rewrite E, (replica_roundtrip t2 n2 H2) in R1.
  injection R1. auto.
Qed.
Lemma replica_rejects s :
  (forall topic num n, s = topic ++ [45] ++ num -> ~ (numeral num n /\ n < 2 ^ 32)) -> parse_replica s = None.
Proof.
  intros H. destruct (parse_replica s) as [[t n]|] eqn:E; [|reflexivity]. exfalso.
  apply parse_replica_iff in E as (num & -> & Hn). exact (H t num n eq_refl Hn).
Qed.

(** C11 *)
Lemma lex_value a : forall b, length a = length b -> Forall is_digit a -> Forall is_digit b ->
  lex a b = (dec_value a ?= dec_value b).
Proof.
  induction a as [|x a IH]; intros [|y b] L Ha Hb; try discriminate; [reflexivity|].
  cbn [lex]. injection L as L. inversion Ha as [|? ? Dx Fa]; inversion Hb as [|? ? Dy Fb]; subst.
  rewrite !dec_value_cons. assert (zlen a = zlen b) as Z1 by (unfold zlen; lia). rewrite Z1.
  pose proof (dec_value_range a Fa) as Ra. pose proof (dec_value_range b Fb) as Rb. rewrite Z1 in Ra.
  set (p := 10 ^ zlen b) in *. clearbody p.
  destruct (x ?= y) eqn:C.
  - apply Z.compare_eq in C. subst y. rewrite IH by assumption. symmetry.
    apply Z.add_compare_mono_l.
  - symmetry. apply Z.compare_lt_iff. change (x < y) in C.
    assert ((x + 1 - 48) * p <= (y - 48) * p) by (apply Z.mul_le_mono_nonneg_r; lia). lia.
  - symmetry. apply Z.compare_gt_iff. change (x > y) in C.
    assert ((y + 1 - 48) * p <= (x - 48) * p) by (apply Z.mul_le_mono_nonneg_r; lia). lia.
Qed.
Lemma dec_value_zeros k l : dec_value (repeat 48 k ++ l) = dec_value l.
Proof.
  rewrite dec_value_app. replace (dec_value (repeat 48 k)) with 0; [lia|].
  induction k as [|k IH]; [reflexivity|]. cbn [repeat]. rewrite dec_value_cons. lia.
Qed.
Definition stem (n : Z) : bytes := repeat 48 (20 - length (print_dec n)) ++ print_dec n.
Lemma stem_spec n : in_u 63 n -> length (stem n) = 20%nat /\ Forall is_digit (stem n) /\ dec_value (stem n) = n.
Proof.
  intros H. unfold in_u in H. destruct (print_dec_spec n) as (A & B & C & D); [lia|]. unfold stem. repeat split.
  - rewrite app_length, repeat_length. lia.
  - apply Forall_app. split; [|exact A]. apply Forall_forall. intros x Hx. apply repeat_spec in Hx. unfold is_digit. lia.
  - rewrite dec_value_zeros. exact B.
Qed.
Lemma file_name_stem n ext : file_name n ext = stem n ++ [46] ++ ext.
Proof. unfold file_name, stem. rewrite <- app_assoc. reflexivity. Qed.
Lemma parse_file_roundtrip n ext : in_u 63 n -> no_dot ext -> parse_file_name (file_name n ext) = Some n.
Proof.
  intros H He. destruct (stem_spec n H) as (L & F & V). unfold in_u in H. unfold parse_file_name, file_stem. rewrite file_name_stem.
  rewrite (proj2 (split_last_spec 46 _ (stem n) ext) (conj eq_refl He)).
  destruct (stem n) as [|c s] eqn:E; [discriminate|]. rewrite L. cbn [Nat.eqb].
  inversion F as [|? ? D _]; subst. unfold is_digit in D.
  assert (parse_i64 (c :: s) = parse_unsigned (2 ^ 63 - 1) (c :: s)) as ->.
  { unfold parse_i64. destruct c as [|p|p]; try reflexivity.
    do 6 (destruct p as [p|p|]; try reflexivity). lia. }
  apply parse_unsigned_spec; [lia|]. split; [|lia]. exists (c :: s). repeat split; auto. discriminate.
Qed.
Lemma lex_app a b x y : length a = length b -> lex (a ++ x) (b ++ y) = match lex a b with Eq => lex x y | c => c end.
Proof.
  revert b. induction a as [|c a IH]; intros [|d b] L; try discriminate; [reflexivity|].
  cbn [lex app]. destruct (c ?= d); try reflexivity. apply IH. injection L. auto.
Qed.
Lemma lex_refl a : lex a a = Eq.
Proof. induction a as [|x a IH]; [reflexivity|]. cbn. rewrite Z.compare_refl. exact IH. Qed.
Lemma file_order a b ext : in_u 63 a -> in_u 63 b -> lex (file_name a ext) (file_name b ext) = (a ?= b).
Proof.
  intros Ha Hb. destruct (stem_spec a Ha) as (La & Fa & Va). destruct (stem_spec b Hb) as (Lb & Fb & Vb).
  rewrite !file_name_stem, lex_app by congruence. rewrite lex_value by (assumption || congruence). rewrite Va, Vb.
  destruct (a ?= b); [apply lex_refl| |]; reflexivity.
Qed.
Lemma file_injective a b e1 e2 : in_u 63 a -> in_u 63 b -> no_dot e1 -> no_dot e2 ->
  file_name a e1 = file_name b e2 -> a = b /\ e1 = e2.
Proof.
  intros Ha Hb N1 N2 E. pose proof (parse_file_roundtrip a e1 Ha N1) as R. rewrite E, (parse_file_roundtrip b e2 Hb N2) in R.
  injection R as <-. split; [reflexivity|]. rewrite !file_name_stem in E. apply app_inv_head in E. injection E. auto.
Qed.
