(** Proofs about what the decoders accept. *)
From Verif Require Import Base ListFacts WireModel WireSpec WireProofs WireAcceptSpec.

(** A decoder that only produces [ok] values, and leaves bytes. *)
Definition accepts {A} (c : codec A) (ok : A -> Prop) : Prop :=
  forall bs v r, is_bytes bs -> c_dec c bs = Ok (v, r) -> ok v /\ is_bytes r.

Lemma bytes_firstn n l : is_bytes l -> is_bytes (firstn n l).
Proof. revert l; induction n as [|n IH]; intros [|b l] H; cbn; try constructor; inversion H; subst; [assumption|apply IH; assumption]. Qed.
Lemma bytes_skipn n l : is_bytes l -> is_bytes (skipn n l).
Proof. revert l; induction n as [|n IH]; intros [|b l] H; cbn; try assumption. apply IH. inversion H; assumption. Qed.

Lemma take_bytes_inv n bs h t : take_bytes n bs = Ok (h, t) -> bs = h ++ t /\ length h = n /\ h = firstn n bs /\ t = skipn n bs.
Proof.
  unfold take_bytes. destruct (length bs <? n)%nat eqn:Q; [discriminate|].
  intros H; injection H as <- <-. apply Nat.ltb_ge in Q.
  split; [symmetry; apply firstn_skipn|]. split; [rewrite firstn_length; lia|auto].
Qed.
Lemma be_val_range h : is_bytes h -> 0 <= be_val h < 256 ^ zlen h.
Proof.
  induction h as [|b h IH]; intros H.
  - cbn. lia.
  - apply Forall_cons_iff in H as [Hb Hh]. specialize (IH Hh). rewrite be_val_cons, zlen_cons.
    rewrite Z.pow_add_r by (pose proof (zlen_nonneg h); lia). change (256 ^ 1) with 256.
    unfold is_byte in Hb. nia.
Qed.
Lemma be_enc_add n v k : be_enc n (v + k * 256 ^ Z.of_nat n) = be_enc n v.
Proof.
  revert k. induction n as [|m IH]; intros k; [reflexivity|]. cbn [be_enc].
  rewrite Nat2Z.inj_succ, Z.pow_succ_r by lia. f_equal.
  - replace (v + k * (256 * 256 ^ Z.of_nat m)) with (v + (k * 256) * 256 ^ Z.of_nat m) by ring.
    rewrite Z.div_add by (apply Z.pow_nonzero; lia). apply Z_mod_plus_full.
  - replace (v + k * (256 * 256 ^ Z.of_nat m)) with (v + (k * 256) * 256 ^ Z.of_nat m) by ring. apply IH.
Qed.
Lemma be_enc_val h : is_bytes h -> be_enc (length h) (be_val h) = h.
Proof.
  induction h as [|b h IH]; intros H; [reflexivity|].
  apply Forall_cons_iff in H as [Hb Hh]. cbn [length be_enc]. rewrite be_val_cons.
  pose proof (be_val_range h Hh) as R. unfold zlen in *. unfold is_byte in Hb. f_equal.
  - rewrite Z.div_add_l by (apply Z.pow_nonzero; lia). rewrite (Z.div_small (be_val h)) by assumption.
    rewrite Z.add_0_r. apply Z.mod_small. lia.
  - rewrite Z.add_comm, be_enc_add. apply IH; assumption.
Qed.
Lemma wrap_s_shift n x : exists k, wrap_s n x = x + k * 2 ^ n.
Proof.
  unfold wrap_s. exists (- ((x + 2 ^ (n - 1)) / 2 ^ n)).
  destruct (Z.eq_dec (2 ^ n) 0) as [E|E].
  - rewrite E, Zmod_0_r. lia.
  - rewrite Z.mod_eq by assumption. ring.
Qed.
Lemma wrap_s_range n x : 0 < n -> in_s n (wrap_s n x).
Proof.
  intros Hn. unfold in_s, wrap_s.
  assert (2 ^ n = 2 * 2 ^ (n - 1)) as E by (rewrite <- Z.pow_succ_r by lia; f_equal; lia).
  assert (0 < 2 ^ (n - 1)) by (apply Z.pow_pos_nonneg; lia).
  pose proof (Z.mod_pos_bound (x + 2 ^ (n - 1)) (2 ^ n) ltac:(lia)). lia.
Qed.

Lemma ok_pair_inj {A B} (a a' : A) (b b' : B) : Ok (a, b) = Ok (a', b') -> a = a' /\ b = b'.
Proof. intros H; injection H; auto. Qed.

Lemma u_canonical n : canonical (u_codec n).
Proof.
  intros bs v rest Hb H. cbn [c_dec c_enc u_codec] in *.
  destruct (take_bytes n bs) as [[h t]|e] eqn:Q; cbn [bind] in H; [|discriminate]. injection H as <- <-.
  apply take_bytes_inv in Q as (E & L & _ & _). subst bs. apply is_bytes_app in Hb as [Hh _].
  rewrite <- L, be_enc_val by assumption. reflexivity.
Qed.
Lemma s_canonical n : canonical (s_codec n).
Proof.
  intros bs v rest Hb H. cbn [c_dec c_enc s_codec] in *.
  destruct (take_bytes n bs) as [[h t]|e] eqn:Q; cbn [bind] in H; [|discriminate]. apply ok_pair_inj in H as [<- <-].
  apply take_bytes_inv in Q as (E & L & _ & _). subst bs. apply is_bytes_app in Hb as [Hh _].
  destruct (wrap_s_shift (8 * Z.of_nat n) (be_val h)) as [k ->]. rewrite <- pow256, be_enc_add.
  rewrite <- L, be_enc_val by assumption. reflexivity.
Qed.
Lemma int_canonical k : canonical (int_codec k).
Proof. destruct k; first [apply u_canonical|apply s_canonical]. Qed.
Lemma u_accepts n : accepts (u_codec n) (in_u (8 * Z.of_nat n)).
Proof.
  intros bs v rest Hb H. cbn [c_dec u_codec] in *.
  destruct (take_bytes n bs) as [[h t]|e] eqn:Q; cbn [bind] in H; [|discriminate]. injection H as <- <-.
  apply take_bytes_inv in Q as (E & L & _ & _). subst bs. apply is_bytes_app in Hb as [Hh Ht].
  split; [|assumption]. unfold in_u. rewrite <- pow256. pose proof (be_val_range h Hh) as R. unfold zlen in R. rewrite L in R. exact R.
Qed.
Lemma s_accepts n : (0 < n)%nat -> accepts (s_codec n) (in_s (8 * Z.of_nat n)).
Proof.
  intros Hn bs v rest Hb H. cbn [c_dec s_codec] in *.
  destruct (take_bytes n bs) as [[h t]|e] eqn:Q; cbn [bind] in H; [|discriminate]. apply ok_pair_inj in H as [<- <-].
  apply take_bytes_inv in Q as (E & L & _ & _). subst bs. apply is_bytes_app in Hb as [Hh Ht].
  split; [|assumption]. apply wrap_s_range. lia.
Qed.
Lemma int_accepts k : accepts (int_codec k) (int_ok k).
Proof.
  destruct k; cbn [int_codec int_ok];
    first [apply (u_accepts 1)|apply (u_accepts 2)|apply (u_accepts 4)|apply (u_accepts 8)
          |apply (s_accepts 1); lia|apply (s_accepts 2); lia|apply (s_accepts 4); lia|apply (s_accepts 8); lia].
Qed.

Lemma bool_canonical : canonical bool_codec.
Proof.
  intros [|b bs] v rest _ H; [discriminate|]. cbn [c_dec bool_codec] in H.
  destruct (b =? 0) eqn:Q; [|destruct (b =? 1) eqn:Q1; [|discriminate]]; injection H as <- <-;
    cbn; f_equal; lia.
Qed.
Lemma canonical_accepts {A} (c : codec A) (ok : A -> Prop) : canonical c -> (forall bs v r, is_bytes bs -> c_dec c bs = Ok (v, r) -> ok v) -> accepts c ok.
Proof.
  intros C O bs v r Hb H. split; [eapply O; eassumption|]. apply C in H; [|assumption]. subst bs. apply is_bytes_app in Hb. tauto.
Qed.
Lemma bool_accepts (ok : bool -> Prop) : (forall b, ok b) -> accepts bool_codec ok.
Proof. intros O. apply canonical_accepts; [apply bool_canonical|auto]. Qed.

Section Comb.
  Context {A B : Type} (ca : codec A) (cb : codec B) (oka : A -> Prop) (okb : B -> Prop).

  Lemma option_canonical : canonical ca -> canonical (option_codec ca).
  Proof.
    intros C bs v rest Hb H. cbn [c_dec option_codec] in H.
    destruct (c_dec bool_codec bs) as [[s r]|e] eqn:Q; cbn [bind] in H; [|discriminate].
    apply bool_canonical in Q as E; [|assumption]. subst bs. apply is_bytes_app in Hb as [_ Hr]. destruct s.
    - destruct (c_dec ca r) as [[a r']|e] eqn:Q'; cbn [bind] in H; [|discriminate]. injection H as <- <-.
      apply C in Q'; [|assumption]. subst r. cbn [c_enc option_codec]. rewrite <- app_assoc. reflexivity.
    - injection H as <- <-. reflexivity.
  Qed.
  Lemma option_accepts : accepts ca oka -> accepts (option_codec ca) (fun o => match o with Some a => oka a | None => True end).
  Proof.
    intros C bs v rest Hb H. cbn [c_dec option_codec] in H.
    destruct (c_dec bool_codec bs) as [[s r]|e] eqn:Q; cbn [bind] in H; [|discriminate].
    apply (bool_accepts (fun _ => True)) in Q; [|auto|assumption]. destruct Q as [_ Hr]. destruct s.
    - destruct (c_dec ca r) as [[a r']|e] eqn:Q'; cbn [bind] in H; [|discriminate]. injection H as <- <-.
      apply C in Q'; assumption.
    - injection H as <- <-. auto.
  Qed.
  Lemma pair_canonical : canonical ca -> canonical cb -> canonical (pair_codec ca cb).
  Proof.
    intros C C' bs v rest Hb H. cbn [c_dec pair_codec] in H.
    destruct (c_dec ca bs) as [[a r]|e] eqn:Q; cbn [bind] in H; [|discriminate].
    destruct (c_dec cb r) as [[b r']|e] eqn:Q'; cbn [bind] in H; [|discriminate]. injection H as <- <-.
    apply C in Q; [|assumption]. subst bs. apply is_bytes_app in Hb as [_ Hr].
    apply C' in Q'; [|assumption]. subst r. cbn [c_enc pair_codec fst snd]. rewrite <- app_assoc. reflexivity.
  Qed.
  Lemma pair_accepts : accepts ca oka -> accepts cb okb -> accepts (pair_codec ca cb) (fun p => oka (fst p) /\ okb (snd p)).
  Proof.
    intros C C' bs v rest Hb H. cbn [c_dec pair_codec] in H.
    destruct (c_dec ca bs) as [[a r]|e] eqn:Q; cbn [bind] in H; [|discriminate].
    destruct (c_dec cb r) as [[b r']|e] eqn:Q'; cbn [bind] in H; [|discriminate]. injection H as <- <-.
    apply C in Q as [Ha Hr]; [|assumption]. apply C' in Q' as [Hb' Hr']; [|assumption]. auto.
  Qed.
  Lemma times_accepts n : accepts ca oka -> forall bs l r, is_bytes bs -> dec_times (c_dec ca) n bs = Ok (l, r) ->
    Forall oka l /\ length l = n /\ is_bytes r.
  Proof.
    intros C. induction n as [|n IH]; intros bs l r Hb H; cbn [dec_times] in H.
    - injection H as <- <-. auto.
    - destruct (c_dec ca bs) as [[a r1]|e] eqn:Q; cbn [bind] in H; [|discriminate].
      destruct (dec_times (c_dec ca) n r1) as [[l2 r2]|e] eqn:Q'; cbn [bind] in H; [|discriminate]. injection H as <- <-.
      apply C in Q as [Ha Hr]; [|assumption]. apply IH in Q' as (F & L & Hr2); [|assumption].
      split; [constructor; assumption|]. split; [cbn; lia|assumption].
  Qed.
  Lemma vec_accepts : accepts ca oka -> accepts (vec_codec ca) (fun l => Forall oka l /\ zlen l < 2 ^ 31).
  Proof.
    intros C bs l r Hb H. cbn [c_dec vec_codec] in H. unfold vec_dec in H.
    destruct (c_dec i32_codec bs) as [[n r1]|e] eqn:Q; cbn [bind] in H; [|discriminate].
    apply (int_accepts I32) in Q as [Hn Hr]; [|assumption]. cbn [int_ok] in Hn. unfold in_s in Hn.
    change (2 ^ (32 - 1)) with (2 ^ 31) in Hn. destruct (n <? 1) eqn:Qn.
    - injection H as <- <-. split; [split; [constructor|reflexivity]|assumption].
    - apply times_accepts in H as (F & L & Hr'); [|assumption..]. split; [split; [assumption|]|assumption].
      unfold zlen. rewrite L. rewrite Z2Nat.id by lia. lia.
  Qed.
End Comb.

Lemma string_accepts : accepts string_codec str_ok.
Proof.
  intros bs v r Hb H. cbn [c_dec string_codec] in H. unfold string_dec in H.
  destruct (c_dec i16_codec bs) as [[n r1]|e] eqn:Q; cbn [bind] in H; [|discriminate].
  apply (int_accepts I16) in Q as [Hn Hr]; [|assumption]. cbn [int_ok] in Hn. unfold in_s in Hn.
  change (2 ^ (16 - 1)) with (2 ^ 15) in Hn. destruct (n <=? 0) eqn:Qn.
  - injection H as <- <-. split; [split; reflexivity|assumption].
  - destruct (utf8_valid (firstn (Z.to_nat n) r1)) eqn:U; cbn [negb] in H; [|discriminate].
    destruct (zlen (firstn (Z.to_nat n) r1) =? n) eqn:L; [|discriminate]. injection H as <- <-.
    split; [split; [assumption|lia]|apply bytes_skipn; assumption].
Qed.
Lemma buf_inv bs v r : is_bytes bs -> c_dec bytebuf_codec bs = Ok (v, r) -> exists r1,
  is_bytes r1 /\ r1 = v ++ r /\ in_u 32 (zlen v) /\ c_dec u32_codec bs = Ok (zlen v, r1).
Proof.
  intros Hb H. cbn [c_dec bytebuf_codec] in H.
  destruct (c_dec u32_codec bs) as [[n r1]|e] eqn:Q; cbn [bind] in H; [|discriminate].
  apply (int_accepts U32) in Q as P; [|assumption]. destruct P as [Hn Hr]. cbn [int_ok] in Hn. exists r1. unfold in_u in *.
  destruct (n <? 1) eqn:Qn.
  - injection H as <- <-. replace n with 0 in * by lia. auto.
  - destruct (zlen r1 <? n) eqn:L; [discriminate|]. injection H as <- <-.
    assert (zlen (firstn (Z.to_nat n) r1) = n) as EL.
    { unfold zlen in *. rewrite firstn_length. lia. }
    rewrite EL. rewrite firstn_skipn. auto.
Qed.
Lemma buf_canonical : canonical bytebuf_codec.
Proof.
  intros bs v r Hb H. apply buf_inv in H as (r1 & _ & -> & U & D); [|assumption].
  apply (int_canonical U32) in D; [|assumption]. rewrite D. cbn [c_enc bytebuf_codec int_codec].
  rewrite wrap_u_id by assumption. rewrite <- app_assoc. reflexivity.
Qed.
Lemma buf_accepts : accepts bytebuf_codec buf_ok.
Proof.
  intros bs v r Hb H. apply buf_inv in H as (r1 & B1 & -> & U & D); [|assumption]. apply is_bytes_app in B1 as [Bv Br].
  split; [split; [assumption|apply U]|assumption].
Qed.
Lemma dur_accepts : accepts duration_codec dur_ok.
Proof.
  intros bs v r Hb H. cbn [c_dec duration_codec] in H.
  destruct (take_bytes 12 bs) as [[h t]|e] eqn:Q; cbn [bind] in H; [|discriminate].
  apply take_bytes_inv in Q as (E & L & _ & _). subst bs. apply is_bytes_app in Hb as [Hh Ht].
  unfold duration_new in H. pose proof (be_val_range _ (bytes_firstn 8 _ Hh)) as R1. pose proof (be_val_range _ (bytes_skipn 8 _ Hh)) as R2.
  set (s := be_val (firstn 8 h)) in *. set (n := be_val (skipn 8 h)) in *.
  destruct (2 ^ 64 <=? s + n / 1000000000) eqn:O; [discriminate|]. cbn [bind] in H. injection H as <- <-.
  split; [|assumption]. unfold dur_ok, in_u. cbn [fst snd]. change (10 ^ 9) with 1000000000.
  pose proof (Z.div_pos n 1000000000 ltac:(lia) ltac:(lia)). pose proof (Z.mod_pos_bound n 1000000000 ltac:(lia)). lia.
Qed.

(** ** Maps *)
Section Order.
  Context {K : Type} (cmp : K -> K -> comparison).
  Record order : Prop := {
    o_eq : forall a b, cmp a b = Eq <-> a = b;
    o_anti : forall a b, cmp b a = CompOpp (cmp a b);
    o_trans : forall a b c, cmp a b = Lt -> cmp b c = Lt -> cmp a c = Lt }.
  Hypothesis O : order.
  Context {V : Type}.
  Notation ins := (@map_insert K V cmp).

  Lemma ins_in k (v : V) m : ascending cmp (map fst m) -> forall x y,
    In (x, y) (ins k v m) <-> (x = k /\ y = v) \/ (x <> k /\ In (x, y) m).
  Proof.
    induction m as [|[k' v'] m IH]; intros Hs x y; cbn [map_insert].
    - split; [intros [H|[]]; injection H as <- <-; auto|intros [[-> ->]|[_ []]]; left; reflexivity].
    - cbn [map fst ascending] in Hs. destruct Hs as [Hlt Hs]. specialize (IH Hs).
      assert (forall y0, ~ In (k', y0) m) as Hk'.
      { intros y0 Hi. apply (in_map fst) in Hi. cbn [fst] in Hi. apply Hlt in Hi.
        assert (cmp k' k' = Eq) as E by (apply (o_eq O); reflexivity). congruence. }
      destruct (cmp k k') eqn:Q.
      + apply (o_eq O) in Q as ->. cbn [In]. split.
        * intros [H|H]; [injection H as <- <-; auto|]. right. split; [intros ->; eapply Hk'; exact H|auto].
        * intros [[-> ->]|[N [H|H]]]; [auto| |auto]. injection H as -> ->. congruence.
      + assert (forall y0, ~ In (k, y0) ((k', v') :: m)) as Hk.
        { intros y0 [H|H]; [injection H as -> ->; assert (cmp k k = Eq) as E by (apply (o_eq O); reflexivity); congruence|].
          apply (in_map fst) in H. cbn [fst] in H. apply Hlt in H.
          assert (cmp k k = Lt) as E by (eapply (o_trans O); eassumption).
          assert (cmp k k = Eq) as E' by (apply (o_eq O); reflexivity). congruence. }
        cbn [In] in *. split.
        * intros [H|H]; [injection H as <- <-; auto|]. right. split; [intros ->; eapply Hk; exact H|exact H].
        * intros [[-> ->]|[N H]]; auto.
      + cbn [In]. rewrite IH. split.
        * intros [H|[[-> ->]|[N H]]]; [|auto|auto]. injection H as -> ->. right. split; [|auto].
          intros ->. assert (cmp k k = Eq) as E by (apply (o_eq O); reflexivity). congruence.
        * intros [[-> ->]|[N [H|H]]]; auto.
  Qed.
  Lemma ins_keys k (v : V) m x : ascending cmp (map fst m) -> In x (map fst (ins k v m)) -> x = k \/ In x (map fst m).
  Proof.
    intros Hs H. apply in_map_iff in H as ([x' y] & <- & Hi). apply ins_in in Hi; [|assumption]. cbn [fst].
    destruct Hi as [[-> _]|[_ Hi]]; [auto|]. right. apply (in_map fst) in Hi. exact Hi.
  Qed.
  Lemma ins_sorted k (v : V) m : ascending cmp (map fst m) -> ascending cmp (map fst (ins k v m)).
  Proof.
    induction m as [|[k' v'] m IH]; intros Hs; cbn [map_insert].
    - cbn. split; [intros ? []|exact I].
    - cbn [map fst ascending] in Hs. destruct Hs as [Hlt Hs]. destruct (cmp k k') eqn:Q.
      + apply (o_eq O) in Q as ->. cbn [map fst ascending]. auto.
      + cbn [map fst ascending]. split; [|auto]. intros x [<-|Hx]; [assumption|].
        eapply (o_trans O); [exact Q|]. apply Hlt. exact Hx.
      + cbn [map fst ascending]. split; [|auto]. intros x Hx. apply ins_keys in Hx; [|assumption].
        destruct Hx as [->|Hx]; [|auto]. rewrite (o_anti O), Q. reflexivity.
  Qed.
  Lemma ins_length k (v : V) m : (length (ins k v m) <= S (length m))%nat.
  Proof. induction m as [|[k' v'] m IH]; cbn [map_insert length]; [lia|]. destruct (cmp k k'); cbn [length]; lia. Qed.

  Lemma fold_ins (es : list (K * V)) : forall m, ascending cmp (map fst m) ->
    let m' := fold_left (fun m e => map_insert cmp (fst e) (snd e) m) es m in
    ascending cmp (map fst m')
    /\ (length m' <= length es + length m)%nat
    /\ forall x y, In (x, y) m' <-> last_for x y es \/ (~ In x (map fst es) /\ In (x, y) m).
  Proof.
    induction es as [|[k v] es IH]; intros m Hs; cbn [fold_left fst snd].
    - split; [assumption|]. split; [cbn; lia|]. intros x y. split; [auto|].
      intros [(b & a & E & _)|[_ H]]; [destruct b; discriminate|assumption].
    - specialize (IH (ins k v m) (ins_sorted k v m Hs)). destruct IH as (S1 & L1 & M1).
      split; [assumption|]. split; [pose proof (ins_length k v m); cbn [length]; lia|].
      intros x y. rewrite M1, ins_in by assumption. split.
      + intros [(b & a & -> & N)|[N [[-> ->]|[N2 H]]]].
        * left. exists ((k, v) :: b), a. auto.
        * left. exists [], es. auto.
        * right. split; [|assumption]. cbn [map fst In]. intros [E|H']; [congruence|contradiction].
      + intros [(b & a & E & N)|[N H]].
        * destruct b as [|p b]; cbn [app] in E.
          { injection E as -> -> ->. right. split; [assumption|]. auto. }
          { injection E as <- ->. left. exists b, a. auto. }
        * cbn [map fst In] in N. right. split; [tauto|]. right. split; [|assumption]. intros ->. apply N; auto.
  Qed.
End Order.

Lemma Zcompare_order : order Z.compare.
Proof.
  split.
  - intros a b. apply Z.compare_eq_iff.
  - intros a b. apply Z.compare_antisym.
  - intros a b c. rewrite !Z.compare_lt_iff. lia.
Qed.
Lemma bytes_order : order bytes_compare.
Proof.
  split.
  - intros a. induction a as [|x a IH]; intros [|y b]; cbn; try (split; congruence).
    destruct (x ?= y) eqn:Q.
    + apply Z.compare_eq_iff in Q as ->. rewrite IH. split; congruence.
    + split; [discriminate|]. intros H; injection H as -> ->. rewrite Z.compare_refl in Q. discriminate.
    + split; [discriminate|]. intros H; injection H as -> ->. rewrite Z.compare_refl in Q. discriminate.
  - intros a. induction a as [|x a IH]; intros [|y b]; cbn; try reflexivity.
    rewrite (Z.compare_antisym x y). destruct (x ?= y); cbn; auto.
  - intros a. induction a as [|x a IH]; intros [|y b] [|z c]; cbn; try congruence.
    destruct (x ?= y) eqn:Q1; try discriminate; destruct (y ?= z) eqn:Q2; try discriminate; intros H1 H2.
    + apply Z.compare_eq_iff in Q1 as ->. rewrite Q2. eapply IH; eassumption.
    + apply Z.compare_eq_iff in Q1 as ->. rewrite Q2. reflexivity.
    + apply Z.compare_eq_iff in Q2 as ->. rewrite Q1. reflexivity.
    + rewrite Z.compare_lt_iff in Q1, Q2. replace (x ?= z) with Lt by (symmetry; apply Z.compare_lt_iff; lia). reflexivity.
Qed.
Lemma kcompare_order k : order (kcompare k).
Proof. destruct k; [apply Zcompare_order|apply bytes_order]. Qed.

Lemma key_accepts k : accepts (kcodec k) (key_ok k).
Proof. destruct k; [apply int_accepts|apply string_accepts]. Qed.

Lemma map_accepts k {V} (cv : codec V) okv : accepts cv okv ->
  accepts (map_codec (kcompare k) (kcodec k) cv)
    (fun m => Forall (fun e => key_ok k (fst e) /\ okv (snd e)) m /\ ascending (kcompare k) (map fst m) /\ zlen m < 2 ^ 16).
Proof.
  intros C bs m r Hb H. cbn [c_dec map_codec] in H.
  destruct (c_dec u16_codec bs) as [[n r1]|e] eqn:Q; cbn [bind] in H; [|discriminate].
  apply (int_accepts U16) in Q as [Hn Hr]; [|assumption]. cbn [int_ok] in Hn. unfold in_u in Hn.
  destruct (dec_times _ (Z.to_nat n) r1) as [[es r2]|e] eqn:Q'; cbn [bind] in H; [|discriminate].
  eapply times_accepts in Q' as (F & L & Hr2); [|apply pair_accepts; [apply key_accepts|exact C]|assumption].
  injection H as <- <-. split; [|assumption].
  destruct (fold_ins _ (kcompare_order k) es [] I) as (S & Len & M). cbn [length] in Len.
  split; [|split; [exact S|]].
  - apply Forall_forall. intros [x y] Hin. apply M in Hin as [(b & a & -> & _)|[_ []]].
    apply Forall_elt in F. exact F.
  - unfold zlen. lia.
Qed.

Lemma composite_accepts t : no_varint t = true -> accepts (codec_of t) (val_ok t).
Proof.
  induction t; cbn [no_varint codec_of val_ok]; intros N; try discriminate.
  - intros bs v r Hb H. injection H as <- <-. auto.
  - apply int_accepts.
  - apply bool_accepts. auto.
  - apply string_accepts.
  - apply buf_accepts.
  - apply dur_accepts.
  - apply option_accepts. auto.
  - apply vec_accepts. auto.
  - apply map_accepts. auto.
  - apply andb_prop in N as [N1 N2]. apply pair_accepts; auto.
Qed.

Lemma accepted t bs v rest : no_varint t = true -> is_bytes bs -> c_dec (codec_of t) bs = Ok (v, rest) ->
  val_ok t v /\ c_dec (codec_of t) (c_enc (codec_of t) v ++ rest) = Ok (v, rest).
Proof.
  intros N Hb H. apply composite_accepts in H as [Hv _]; [|assumption..]. split; [assumption|].
  apply composite_lawful. assumption.
Qed.

Lemma composite_canonical t : plain t = true -> canonical (codec_of t).
Proof.
  induction t; cbn [plain codec_of]; intros N; try discriminate.
  - intros bs v r Hb H. injection H as <- <-. reflexivity.
  - apply int_canonical.
  - apply bool_canonical.
  - apply buf_canonical.
  - apply option_canonical. auto.
  - apply andb_prop in N as [N1 N2]. apply pair_canonical; auto.
Qed.


Lemma repeated_key k t es rest :
  Forall (fun e => key_ok k (fst e) /\ val_ok t (snd e)) es -> zlen es < 2 ^ 16 ->
  exists m, c_dec (codec_of (TMap k t)) (sent_map k t es ++ rest) = Ok (m, rest)
    /\ ascending (kcompare k) (map fst m)
    /\ forall x v, In (x, v) m <-> last_for x v es.
Proof.
  intros F L. pose proof (zlen_nonneg es) as H0. pose proof (composite_lawful t) as LT.
  pose proof (pair_lawful _ _ _ _ (key_lawful k) LT) as LP.
  destruct (fold_ins _ (kcompare_order k) es [] I) as (S & _ & M).
  eexists. split; [|split; [exact S|]].
  - cbn [codec_of c_dec map_codec]. unfold sent_map. rewrite <- app_assoc.
    change (be_enc 2 (zlen es)) with (c_enc u16_codec (zlen es)).
    destruct (u_lawful 2) as (R & _). unfold u16_codec. rewrite R.
    2: { unfold in_u. change (8 * Z.of_nat 2) with 16. lia. }
    cbn [bind]. unfold zlen. rewrite Nat2Z.id.
    change (fun e => c_enc (kcodec k) (fst e) ++ c_enc (codec_of t) (snd e)) with (c_enc (pair_codec (kcodec k) (codec_of t))).
    rewrite (dec_times_flat _ _ LP es rest F). cbn [bind]. reflexivity.
  - intros x v. rewrite M. split; [intros [H|[_ []]]; assumption|auto].
Qed.

(** ** The types that are not plain have values with several encodings. *)
Lemma loose t : (t = TVec (TInt U8) \/ t = TStr \/ t = TMap (KInt U8) TBool \/ t = TDur \/ t = TVarint) ->
  exists bs bs' v, is_bytes bs /\ is_bytes bs' /\ bs <> bs'
    /\ c_dec (codec_of t) bs = Ok (v, []) /\ c_dec (codec_of t) bs' = Ok (v, []).
Proof.
  assert (forall l, forallb (fun b => (0 <=? b) && (b <? 256)) l = true -> is_bytes l) as B.
  { intros l H. apply Forall_forall. intros b Hb. rewrite forallb_forall in H. apply H in Hb. unfold is_byte. lia. }
  intros [-> | [-> | [-> | [-> | -> ]]]].
  - exists [0;0;0;0], [255;255;255;255], []. split; [apply B; reflexivity|]. split; [apply B; reflexivity|].
    split; [discriminate|split; vm_compute; reflexivity].
  - exists [0;0], [128;0], []. split; [apply B; reflexivity|]. split; [apply B; reflexivity|].
    split; [discriminate|split; vm_compute; reflexivity].
  - exists [0;1;7;1], [0;2;7;0;7;1], [(7, true)]. split; [apply B; reflexivity|]. split; [apply B; reflexivity|].
    split; [discriminate|split; vm_compute; reflexivity].
  - exists [0;0;0;0;0;0;0;1;0;0;0;0], [0;0;0;0;0;0;0;0;59;154;202;0], (1, 0). split; [apply B; reflexivity|]. split; [apply B; reflexivity|].
    split; [discriminate|split; vm_compute; reflexivity].
  - exists [2], [130;0], 1. split; [apply B; reflexivity|]. split; [apply B; reflexivity|].
    split; [discriminate|split; vm_compute; reflexivity].
Qed.
