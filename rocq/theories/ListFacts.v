(** General list and integer lemmas. *)
From Verif Require Import Base.

Lemma zlen_app {A} (a b : list A) : zlen (a ++ b) = zlen a + zlen b.
Proof. unfold zlen. rewrite app_length. lia. Qed.
Lemma zlen_cons {A} (x : A) l : zlen (x :: l) = zlen l + 1.
Proof. unfold zlen. cbn [length]. lia. Qed.
Lemma zlen_nil {A} : zlen (@nil A) = 0.
Proof. reflexivity. Qed.
Lemma zlen_nonneg {A} (l : list A) : 0 <= zlen l.
Proof. unfold zlen. lia. Qed.

Lemma firstn_app_le {A} (a b : list A) k : (k <= length a)%nat -> firstn k (a ++ b) = firstn k a.
Proof.
  intro H. rewrite firstn_app. replace (k - length a)%nat with 0%nat by lia.
  cbn [firstn]. apply app_nil_r.
Qed.
Lemma firstn_app_ge {A} (a b : list A) k :
  (length a <= k)%nat -> firstn k (a ++ b) = a ++ firstn (k - length a) b.
Proof. intro H. rewrite firstn_app, firstn_all2 by lia. reflexivity. Qed.
Lemma firstn_app_exact {A} (a b : list A) : firstn (length a) (a ++ b) = a.
Proof. rewrite firstn_app_le by lia. apply firstn_all. Qed.
Lemma skipn_app_exact {A} (a b : list A) : skipn (length a) (a ++ b) = b.
Proof. rewrite skipn_app, skipn_all, Nat.sub_diag. reflexivity. Qed.
Lemma firstn_app_n {A} (a b : list A) n : length a = n -> firstn n (a ++ b) = a.
Proof. intros <-. apply firstn_app_exact. Qed.
Lemma skipn_app_n {A} (a b : list A) n : length a = n -> skipn n (a ++ b) = b.
Proof. intros <-. apply skipn_app_exact. Qed.

Lemma is_bytes_app a b : is_bytes (a ++ b) <-> is_bytes a /\ is_bytes b.
Proof. apply Forall_app. Qed.

Lemma pow2_pos n : 0 <= n -> 0 < 2 ^ n.
Proof. intro. apply Z.pow_pos_nonneg; lia. Qed.

Lemma wrap_s_id n x : 1 <= n -> in_s n x -> wrap_s n x = x.
Proof.
  unfold in_s, wrap_s. intros Hn H.
  assert (2 ^ n = 2 * 2 ^ (n - 1)) by (rewrite <- Z.pow_succ_r by lia; f_equal; lia).
  rewrite Z.mod_small; lia.
Qed.
Lemma wrap_s_range n x : 1 <= n -> in_s n (wrap_s n x).
Proof.
  unfold in_s, wrap_s. intros Hn.
  assert (2 ^ n = 2 * 2 ^ (n - 1)) by (rewrite <- Z.pow_succ_r by lia; f_equal; lia).
  assert (0 < 2 ^ (n - 1)) by (apply pow2_pos; lia).
  pose proof (Z.mod_pos_bound (x + 2 ^ (n - 1)) (2 ^ n)). lia.
Qed.
Lemma wrap_s_mod n x : 1 <= n -> wrap_s n (x mod 2 ^ n) = wrap_s n x.
Proof.
  unfold wrap_s. intros Hn. rewrite Z.add_mod_idemp_l; [reflexivity|].
  apply Z.pow_nonzero; lia.
Qed.
Lemma wrap_u_id n x : in_u n x -> wrap_u n x = x.
Proof. unfold in_u, wrap_u. intros. apply Z.mod_small. lia. Qed.

(** A boolean property checked on 0..n-1 holds for every such integer. *)
Fixpoint zforallb (n : nat) (f : Z -> bool) : bool :=
  match n with O => true | S m => f (Z.of_nat m) && zforallb m f end.
Lemma zforallb_spec n f : zforallb n f = true -> forall x, 0 <= x < Z.of_nat n -> f x = true.
Proof.
  induction n as [|m IH]; intros H x Hx; [lia|].
  cbn [zforallb] in H. apply andb_true_iff in H as [H1 H2].
  destruct (Z.eq_dec x (Z.of_nat m)) as [->|]; [assumption|]. apply IH; [assumption|lia].
Qed.

Lemma lor_add num v s : 0 <= s -> 0 <= num < 2 ^ s -> Z.lor num (v * 2 ^ s) = num + v * 2 ^ s.
Proof.
  intros Hs Hn.
  assert (Z.land num (v * 2 ^ s) = 0) as H0.
  2: { rewrite Z.add_nocarry_lxor, Z.lxor_lor by assumption. reflexivity. }
  apply Z.bits_inj'. intros i Hi. rewrite Z.land_spec, Z.bits_0.
  destruct (Z.lt_ge_cases i s) as [Hlt|Hge].
  - rewrite Z.mul_pow2_bits_low by lia. apply andb_false_r.
  - replace num with (num mod 2 ^ s) by (apply Z.mod_small; lia).
    rewrite Z.mod_pow2_bits_high by lia. reflexivity.
Qed.

Lemma ztake_firstn {A} (l : list A) : forall n, ztake n l = firstn (Z.to_nat n) l.
Proof.
  induction l as [|x l IH]; intros n; cbn [ztake].
  - rewrite firstn_nil. reflexivity.
  - destruct (n <=? 0) eqn:E.
    + replace (Z.to_nat n) with 0%nat by lia. reflexivity.
    + replace (Z.to_nat n) with (S (Z.to_nat (n - 1))) by lia. cbn [firstn]. rewrite IH. reflexivity.
Qed.
Lemma zdrop_skipn {A} (l : list A) : forall n, zdrop n l = skipn (Z.to_nat n) l.
Proof.
  induction l as [|x l IH]; intros n; cbn [zdrop].
  - rewrite skipn_nil. reflexivity.
  - destruct (n <=? 0) eqn:E.
    + replace (Z.to_nat n) with 0%nat by lia. reflexivity.
    + replace (Z.to_nat n) with (S (Z.to_nat (n - 1))) by lia. cbn [skipn]. rewrite IH. reflexivity.
Qed.
Lemma ztake_zdrop {A} n (l : list A) : ztake n l ++ zdrop n l = l.
Proof. rewrite ztake_firstn, zdrop_skipn. apply firstn_skipn. Qed.
Lemma ztake_app_exact {A} (a b : list A) : ztake (zlen a) (a ++ b) = a.
Proof. rewrite ztake_firstn. unfold zlen. rewrite Nat2Z.id. apply firstn_app_exact. Qed.
Lemma zdrop_app_exact {A} (a b : list A) : zdrop (zlen a) (a ++ b) = b.
Proof. rewrite zdrop_skipn. unfold zlen. rewrite Nat2Z.id. apply skipn_app_exact. Qed.
Lemma ztake_all {A} n (l : list A) : zlen l <= n -> ztake n l = l.
Proof. intros. rewrite ztake_firstn. apply firstn_all2. unfold zlen in *. lia. Qed.
Lemma zdrop_all {A} n (l : list A) : zlen l <= n -> zdrop n l = [].
Proof. intros. rewrite zdrop_skipn. apply skipn_all2. unfold zlen in *. lia. Qed.
Lemma zlen_ztake {A} n (l : list A) : zlen (ztake n l) = Z.max 0 (Z.min n (zlen l)).
Proof. rewrite ztake_firstn. unfold zlen. rewrite firstn_length. lia. Qed.
Lemma zlen_zdrop {A} n (l : list A) : zlen (zdrop n l) = Z.max 0 (zlen l - Z.max 0 n).
Proof. rewrite zdrop_skipn. unfold zlen. rewrite skipn_length. lia. Qed.
Lemma ztake_neg {A} n (l : list A) : n <= 0 -> ztake n l = [].
Proof. intros. rewrite ztake_firstn. replace (Z.to_nat n) with 0%nat by lia. reflexivity. Qed.
Lemma zdrop_neg {A} n (l : list A) : n <= 0 -> zdrop n l = l.
Proof. intros. rewrite zdrop_skipn. replace (Z.to_nat n) with 0%nat by lia. reflexivity. Qed.
Lemma ztake_app_le {A} n (a b : list A) : n <= zlen a -> ztake n (a ++ b) = ztake n a.
Proof. intros. rewrite !ztake_firstn. apply firstn_app_le. unfold zlen in *. lia. Qed.
Lemma ztake_app_ge {A} n (a b : list A) : zlen a <= n -> ztake n (a ++ b) = a ++ ztake (n - zlen a) b.
Proof.
  intros. rewrite !ztake_firstn. rewrite firstn_app_ge by (unfold zlen in *; lia). f_equal. f_equal. unfold zlen in *. lia.
Qed.
Lemma zdrop_app_le {A} n (a b : list A) : n <= zlen a -> zdrop n (a ++ b) = zdrop n a ++ b.
Proof.
  intros. rewrite !zdrop_skipn, skipn_app.
  replace (Z.to_nat n - length a)%nat with 0%nat by (unfold zlen in *; lia). reflexivity.
Qed.
Lemma zdrop_app_ge {A} n (a b : list A) : zlen a <= n -> zdrop n (a ++ b) = zdrop (n - zlen a) b.
Proof.
  intros. rewrite !zdrop_skipn, skipn_app. rewrite skipn_all2 by (unfold zlen in *; lia).
  cbn [app]. f_equal. unfold zlen in *. lia.
Qed.
Lemma as_usize_id x : 0 <= x < 2 ^ 63 -> as_usize x = x.
Proof. intros. unfold as_usize. apply Z.mod_small. change (2^64) with (2 * 2 ^ 63). lia. Qed.
