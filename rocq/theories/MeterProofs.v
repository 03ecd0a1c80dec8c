(** Proofs about the counters of an SPU. *)
From Coq Require Import ZArith List Bool Lia Permutation.
Import ListNotations.
From Verif Require Import Base MeterModel MeterSpec.
Open Scope Z_scope.

Lemma u64_l a b : u64 (u64 a + b) = u64 (a + b). Proof. apply Zplus_mod_idemp_l. Qed.
Lemma u64_r a b : u64 (a + u64 b) = u64 (a + b). Proof. apply Zplus_mod_idemp_r. Qed.
Lemma u64_u64 a : u64 (u64 a) = u64 a. Proof. apply Zmod_mod. Qed.
Lemma u64_small a : 0 <= a < 2 ^ 64 -> u64 a = a. Proof. apply Z.mod_small. Qed.
Lemma u64_range a : 0 <= u64 a < 2 ^ 64. Proof. apply Z.mod_pos_bound. reflexivity. Qed.
Opaque u64.
Local Arguments counter /.

Lemma fresh_good t : good (fresh t). Proof. intros []; cbn; repeat split; apply u64_small; lia. Qed.

Lemma increase_side a k k' r b : side k (increase a k' r b) = if Bool.eqb k k' then incr (side k a) r b else side k a.
Proof. destruct k, k'; reflexivity. Qed.

(** one step *)
Lemma in_step s e k : keeps e -> good s ->
  c_records (side k (s_in (meter s e))) = u64 (c_records (side k (s_in s)) + stored k e) /\
  c_bytes (side k (s_in (meter s e))) = u64 (c_bytes (side k (s_in s)) + stored_bytes k e).
Proof.
  intros K G. destruct (G k) as (G1 & G2 & _).
  destruct e as [p k' n b|p h|p o|p k' d sl|p k' d len|k' c l|c]; cbn; rewrite ?Z.add_0_r; auto.
  - cbn in K. unfold write_record_set. destruct (n =? 0) eqn:E; [apply Z.eqb_eq in E; lia |]. cbn. rewrite increase_side.
    destruct (Bool.eqb k k'); [| rewrite !Z.add_0_r; auto]. cbn. rewrite !u64_r. replace (p_leo (s_log s p) + n - p_leo (s_log s p)) with n by lia. auto.
  - destruct sl; cbn; auto.
  - destruct (len =? 0); cbn; auto.
Qed.
Lemma good_step s e : good s -> good (meter s e).
Proof.
  intros G k. unfold counter in *. destruct (G k) as (G1 & G2 & G3 & G4).
  destruct e as [p k' n b|p h|p o|p k' d sl|p k' d len|k' c l|c]; cbn; auto.
  - unfold write_record_set. destruct (n =? 0); cbn; rewrite increase_side; destruct (Bool.eqb k k'); cbn; rewrite ?u64_u64; auto.
  - destruct sl; cbn; auto. rewrite increase_side; destruct (Bool.eqb k k'); cbn; rewrite ?u64_u64; auto.
  - destruct (len =? 0); cbn; auto. rewrite increase_side; destruct (Bool.eqb k k'); cbn; rewrite ?u64_u64; auto.
  - rewrite increase_side; destruct (Bool.eqb k k'); cbn; rewrite ?u64_u64; auto.
Qed.
Lemma good_from t l : good (metered (fresh t) l).
Proof. assert (H : forall l s, good s -> good (metered s l)) by (clear; induction l as [|e l IH]; intros s G; auto; apply IH, good_step, G). apply H, fresh_good. Qed.
Lemma over_cons f e l : over f (e :: l) = f e + over f l. Proof. reflexivity. Qed.
Lemma inbound_from s l k : good s -> Forall keeps l ->
  c_records (side k (s_in (metered s l))) = u64 (c_records (side k (s_in s)) + over (stored k) l) /\
  c_bytes (side k (s_in (metered s l))) = u64 (c_bytes (side k (s_in s)) + over (stored_bytes k) l).
Proof.
  revert s. induction l as [|e l IH]; intros s G K.
  - cbn. rewrite !Z.add_0_r. destruct (G k) as (-> & -> & _). auto.
  - inversion K as [|? ? Ke Kl]; subst. cbn [metered fold_left]. change (fold_left meter l (meter s e)) with (metered (meter s e) l).
    destruct (in_step s e k Ke G) as (A & B). destruct (IH (meter s e) (good_step _ _ G) Kl) as (C & D).
    rewrite C, D, A, B, !u64_l, !over_cons, !Z.add_assoc. auto.
Qed.
Lemma inbound t l k : Forall keeps l ->
  c_records (side k (s_in (metered (fresh t) l))) = u64 (over (stored k) l) /\
  c_bytes (side k (s_in (metered (fresh t) l))) = u64 (over (stored_bytes k) l).
Proof. intros K. destruct (inbound_from (fresh t) l k (fresh_good t) K) as (A & B). rewrite A, B. destruct k; cbn; auto. Qed.

Lemma log_from l : forall s p, Forall keeps l -> p_leo (s_log (metered s l) p) = p_leo (s_log s p) + over (stored_on p) l.
Proof.
  induction l as [|e l IH]; intros s p K; [cbn; lia |]. inversion K as [|? ? Ke Kl]; subst. cbn [metered fold_left]. change (fold_left meter l (meter s e)) with (metered (meter s e) l).
  rewrite IH, over_cons by auto.
  assert (H : p_leo (s_log (meter s e) p) = p_leo (s_log s p) + stored_on p e); [| lia].
  destruct e as [q k' n b|q h|q o|q k' d sl|q k' d len|k' c w|c]; cbn; try lia.
  - unfold write_record_set. destruct (n =? 0) eqn:E; [apply Z.eqb_eq in E; cbn in Ke; lia |]. cbn. unfold set_log. destruct (p =? q) eqn:F; [| lia]. apply Z.eqb_eq in F. subst. reflexivity.
  - unfold set_log. destruct (p =? q) eqn:F; [| lia]. apply Z.eqb_eq in F. subst. cbn. lia.
  - unfold set_log. destruct (p =? q) eqn:F; [| lia]. apply Z.eqb_eq in F. subst. cbn. lia.
  - destruct sl; cbn; lia.
  - destruct (len =? 0); cbn; lia.
Qed.

Lemma total_perm l l' : Permutation l l' -> total l = total l'.
Proof. unfold total. induction 1; cbn [fold_right]; lia. Qed.
Lemma over_perm f l l' : Permutation l l' -> over f l = over f l'.
Proof. intros P. apply total_perm. now apply Permutation_map. Qed.
Lemma any_order t l l' k : Forall keeps l -> Permutation l l' -> side k (s_in (metered (fresh t) l)) = side k (s_in (metered (fresh t) l')).
Proof.
  intros K P. assert (K' : Forall keeps l') by (rewrite Forall_forall in *; intros x H; apply K; now apply (Permutation_in x (Permutation_sym P))).
  destruct (inbound t l k K) as (A & B). destruct (inbound t l' k K') as (C & D).
  rewrite (over_perm _ _ _ P) in A. rewrite (over_perm _ _ _ P) in B.
  destruct (side k (s_in (metered (fresh t) l))), (side k (s_in (metered (fresh t) l'))). cbn in *. congruence.
Qed.

Lemma out_bytes_step s e k : good s -> c_bytes (side k (s_out (meter s e))) = u64 (c_bytes (side k (s_out s)) + sent_bytes k e).
Proof.
  intros G. destruct (G k) as (_ & _ & _ & G4).
  destruct e as [p k' n b|p h|p o|p k' d sl|p k' d len|k' c l|c]; cbn; rewrite ?Z.add_0_r; auto.
  - destruct (write_record_set (s_log s p) n b) as (g & ((x & y) & z)). cbn. auto.
  - destruct sl; cbn; rewrite ?Z.add_0_r; auto. rewrite increase_side; destruct (Bool.eqb k k'); cbn; rewrite ?Z.add_0_r; auto.
  - destruct (len =? 0) eqn:E; cbn.
    + apply Z.eqb_eq in E. subst. destruct (Bool.eqb k k'); rewrite Z.add_0_r; auto.
    + rewrite increase_side; destruct (Bool.eqb k k'); cbn; rewrite ?Z.add_0_r; auto.
  - rewrite increase_side; destruct (Bool.eqb k k'); cbn; rewrite ?Z.add_0_r, ?u64_r; auto.
Qed.
Lemma out_step s e k : through_modules e -> good s -> sent k e = sent k e -> (match e with Stream _ _ d _ => d = 0 | _ => True end) ->
  c_records (side k (s_out (meter s e))) = u64 (c_records (side k (s_out s)) + sent k e).
Proof.
  intros T G _ D. destruct (G k) as (_ & _ & G3 & _).
  destruct e as [p k' n b|p h|p o|p k' d sl|p k' d len|k' c l|c]; cbn in *; rewrite ?Z.add_0_r; auto.
  - destruct (write_record_set (s_log s p) n b) as (g & ((x & y) & z)). cbn. auto.
  - destruct sl; [destruct T |]. rewrite Z.add_0_r. auto.
  - subst. cbn. destruct (Bool.eqb k k'); rewrite Z.add_0_r; auto.
  - rewrite increase_side; destruct (Bool.eqb k k'); cbn; rewrite ?Z.add_0_r, ?u64_r; auto.
Qed.
Lemma out_bytes_from l : forall s k, good s -> c_bytes (side k (s_out (metered s l))) = u64 (c_bytes (side k (s_out s)) + over (sent_bytes k) l).
Proof.
  induction l as [|e l IH]; intros s k G.
  - cbn. rewrite Z.add_0_r. destruct (G k) as (_ & _ & _ & ->). auto.
  - cbn [metered fold_left]. change (fold_left meter l (meter s e)) with (metered (meter s e) l).
    rewrite IH by now apply good_step. rewrite out_bytes_step by auto. rewrite u64_l, over_cons, Z.add_assoc. auto.
Qed.
Lemma out_bytes t l k : c_bytes (side k (s_out (metered (fresh t) l))) = u64 (over (sent_bytes k) l).
Proof. rewrite out_bytes_from by apply fresh_good. destruct k; cbn; auto. Qed.

Lemma out_records_from l : forall s k, good s -> Forall through_modules l -> Forall honest l ->
  c_records (side k (s_out (metered s l))) = u64 (c_records (side k (s_out s)) + over (sent k) l).
Proof.
  induction l as [|e l IH]; intros s k G T H.
  - cbn. rewrite Z.add_0_r. destruct (G k) as (_ & _ & -> & _). auto.
  - inversion T as [|? ? Te Tl]; subst. inversion H as [|? ? He Hl]; subst. cbn [metered fold_left]. change (fold_left meter l (meter s e)) with (metered (meter s e) l).
    rewrite IH; auto using good_step. rewrite out_step; auto; [| destruct e; auto; cbn in *; auto]. rewrite u64_l, over_cons, Z.add_assoc. auto.
Qed.
Lemma out_records t l k : Forall through_modules l -> Forall honest l -> c_records (side k (s_out (metered (fresh t) l))) = u64 (over (sent k) l).
Proof. intros T H. rewrite out_records_from; auto using fresh_good. destruct k; cbn; auto. Qed.

(** what is sent as it is in the file *)
Lemma raw s p k d len : len <> 0 -> good s ->
  c_records (side k (s_out (meter s (Stream p k d len)))) = u64 (c_records (side k (s_out s)) + (p_hw (s_log s p) - p_start (s_log s p))) /\
  meter s (Fetch p k d (Some len)) = meter s (Stream p k d len).
Proof.
  intros N G. cbn. destruct (len =? 0) eqn:E; [apply Z.eqb_eq in E; congruence |]. cbn. rewrite increase_side, eqb_reflx. cbn. rewrite u64_r. auto.
Qed.
Lemma u64_eq a x y : u64 (a + x) = u64 (a + y) -> 0 <= x < 2 ^ 64 -> 0 <= y < 2 ^ 64 -> x = y.
Proof.
  intros H X Y. rewrite <- (u64_small x X), <- (u64_small y Y).
  replace x with (- a + (a + x)) by lia. replace y with (- a + (a + y)) by lia. rewrite <- (u64_r _ (a + x)), <- (u64_r _ (a + y)), H. reflexivity.
Qed.
Lemma raw_iff s p k d len : good s -> len <> 0 -> 0 <= p_start (s_log s p) <= p_hw (s_log s p) -> p_hw (s_log s p) < 2 ^ 63 -> 0 <= d < 2 ^ 63 ->
  (c_records (side k (s_out (meter s (Stream p k d len)))) = u64 (c_records (side k (s_out s)) + d) <-> d = p_hw (s_log s p) - p_start (s_log s p)).
Proof.
  intros G N A B D. destruct (raw s p k d len N G) as (-> & _). assert (2 ^ 63 < 2 ^ 64) by lia. split; [| intros ->; auto].
  intros H0. symmetry. apply (u64_eq _ _ _ H0); lia.
Qed.
Lemma dropped s p k b : good s -> let s' := meter s (Write p k 0 b) in
  (forall q, s_log s' q = s_log s q) /\ c_records (side k (s_in s')) = u64 (c_records (side k (s_in s)) + (p_leo (s_log s p) - p_hw (s_log s p))) /\
  c_bytes (side k (s_in s')) = c_bytes (side k (s_in s)).
Proof.
  intros G s'. destruct (G k) as (_ & G2 & _). unfold s'. cbn. rewrite increase_side, eqb_reflx. cbn. rewrite !u64_r, Z.add_0_r, G2. repeat split.
  intros q. unfold set_log. destruct (q =? p) eqn:E; auto. apply Z.eqb_eq in E. now subst.
Qed.

(** sides do not mix *)
Lemma apart s e k : (match e with Write _ k' _ _ => k' <> k | _ => True end) -> side k (s_in (meter s e)) = side k (s_in s).
Proof.
  destruct e as [p k' n b|p h|p o|p k' d sl|p k' d len|k' c l|c]; cbn; intros N; auto.
  - destruct (write_record_set (s_log s p) n b) as (g & ((x & y) & z)). cbn. rewrite increase_side. destruct k, k'; cbn; congruence.
  - destruct sl; auto.
  - destruct (len =? 0); auto.
Qed.
Lemma apart_out s e k : (match e with Fetch _ k' _ _ | Stream _ k' _ _ | Process k' _ _ => k' <> k | _ => True end) -> side k (s_out (meter s e)) = side k (s_out s).
Proof.
  destruct e as [p k' n b|p h|p o|p k' d sl|p k' d len|k' c l|c]; cbn; intros N; auto.
  - destruct (write_record_set (s_log s p) n b) as (g & ((x & y) & z)). auto.
  - destruct sl; cbn; auto. rewrite increase_side. destruct k, k'; cbn; congruence.
  - destruct (len =? 0); cbn; auto. rewrite increase_side. destruct k, k'; cbn; congruence.
  - rewrite increase_side. destruct k, k'; cbn; congruence.
Qed.
(** ** Modules *)
Definition sum_of (g : list call -> Z) (x : Z) (c : chain) : Z := total (map (fun i => if x =? fst i then g (snd i) else 0) c).

Section Field.
  Variables (f : load -> Z) (g : list call -> Z).
  Hypothesis (Hz : f no_load = 0) (Ha : forall a b, f (append a b) = u64 (f a + f b)) (Hs : forall l, u64 (f (share (instance_load l))) = u64 (g l)).
  Definition fget (t : Z -> option load) (x : Z) : Z := f (shown t x).
  Definition fine (t : Z -> option load) : Prop := forall x, u64 (fget t x) = fget t x.
  Lemma u64_0 : u64 0 = 0. Proof. apply u64_small. lia. Qed.
  Lemma put_get n m t x : fine t -> fget (put n m t) x = if x =? n then u64 (fget t x + f m) else fget t x.
  Proof. intros F. unfold fget, shown, put. destruct (x =? n); auto. destruct (t x); now rewrite Ha. Qed.
  Lemma put_fine n m t : fine t -> fine (put n m t).
  Proof. intros F x. rewrite put_get by auto. destruct (x =? n); [apply u64_u64 | apply F]. Qed.
  Lemma export_from c : forall t x, fine t ->
    let e := fold_left (fun t i => put (fst i) (share (instance_load (snd i))) t) c t in
    fine e /\ fget e x = u64 (fget t x + sum_of g x c).
  Proof.
    induction c as [|i c IH]; intros t x F; cbn [fold_left].
    - cbn. split; auto. rewrite Z.add_0_r. symmetry. apply F.
    - destruct (IH (put (fst i) (share (instance_load (snd i))) t) x (put_fine _ _ _ F)) as (A & B). split; auto.
      rewrite B, put_get by auto. change (sum_of g x (i :: c)) with ((if x =? fst i then g (snd i) else 0) + sum_of g x c).
      destruct (x =? fst i).
      + rewrite u64_l. set (m := share (instance_load (snd i))) in *.
        replace (fget t x + f m + sum_of g x c) with (fget t x + sum_of g x c + f m) by lia.
        replace (fget t x + (g (snd i) + sum_of g x c)) with (fget t x + sum_of g x c + g (snd i)) by lia.
        rewrite <- (u64_r _ (f m)). unfold m. rewrite Hs, u64_r. reflexivity.
      + now rewrite Z.add_0_l.
  Qed.
  Lemma empty_fine : fine (fun _ => None). Proof. intros x. unfold fget, shown. rewrite Hz. apply u64_0. Qed.
  Lemma export_get c x : fget (export c) x = u64 (sum_of g x c) /\ fine (export c).
  Proof. destruct (export_from c (fun _ => None) x empty_fine) as (A & B). split; auto. unfold export. rewrite B. unfold fget, shown. now rewrite Hz. Qed.
  Lemma update_get t e x : fine t -> fine e -> fget (update t e) x = u64 (fget t x + fget e x).
  Proof.
    intros F E. specialize (F x). specialize (E x). unfold fget, shown, update in *. destruct (e x); [destruct (t x) |].
    - now rewrite Ha.
    - now rewrite Hz, Z.add_0_l.
    - rewrite Hz, Z.add_0_r. auto.
  Qed.
  Definition of_event (x : Z) (e : event) : Z := match e with Process _ c _ => sum_of g x c | _ => 0 end.
  Lemma mod_same s e : (forall k c l, e <> Process k c l) -> s_mod (meter s e) = s_mod s.
  Proof.
    intros N. destruct e as [p k' n b|p h|p o|p k' d sl|p k' d len|k' c l|c]; cbn; auto.
    - destruct (write_record_set (s_log s p) n b) as (w & ((a & y) & z)). auto.
    - destruct sl; auto.
    - destruct (len =? 0); auto.
    - exfalso. now eapply N.
  Qed.
  Lemma mod_step s e x : fine (s_mod s) -> fget (s_mod (meter s e)) x = u64 (fget (s_mod s) x + of_event x e).
  Proof.
    intros F. assert (D : (exists k c l, e = Process k c l) \/ (forall k c l, e <> Process k c l)) by (destruct e; try (right; congruence); left; eauto).
    destruct D as [(k & c & l & ->)|N].
    - cbn. destruct (export_get c x) as (A & B). rewrite update_get by auto. rewrite A, u64_r. auto.
    - rewrite mod_same by auto. replace (of_event x e) with 0 by (destruct e; auto; exfalso; now eapply N). rewrite Z.add_0_r. symmetry. apply F.
  Qed.
  Lemma mod_fine s e : fine (s_mod s) -> fine (s_mod (meter s e)).
  Proof. intros F x. rewrite mod_step by auto. apply u64_u64. Qed.
  Lemma mod_from l : forall s x, fine (s_mod s) -> fget (s_mod (metered s l)) x = u64 (fget (s_mod s) x + total (map (of_event x) l)).
  Proof.
    induction l as [|e l IH]; intros s x F; cbn [metered fold_left map total fold_right].
    - rewrite Z.add_0_r. symmetry. apply F.
    - change (fold_left meter l (meter s e)) with (metered (meter s e) l). rewrite IH by now apply mod_fine. rewrite mod_step by auto. rewrite u64_l, Z.add_assoc. reflexivity.
  Qed.
  Lemma mod_total t l x : fget (s_mod (metered (fresh t) l)) x = u64 (total (map (of_event x) l)).
  Proof. rewrite mod_from by apply empty_fine. unfold fget, shown. cbn. now rewrite Hz. Qed.
End Field.

(** sums over the calls *)
Section Calls.
  Variable h : call -> Z.
  Definition sum_calls (l : list call) : Z := total (map h l).
  Lemma total_app a b : total (a ++ b) = total a + total b.
  Proof. unfold total. induction a; cbn [fold_right app]; lia. Qed.
  Lemma sum_app a b : sum_calls (a ++ b) = sum_calls a + sum_calls b.
  Proof. unfold sum_calls. now rewrite map_app, total_app. Qed.
  Lemma sum_chain x c : sum_of sum_calls x c = sum_calls (calls_of x c).
  Proof.
    induction c as [|i c IH]; auto. change (calls_of x (i :: c)) with ((if x =? fst i then snd i else []) ++ calls_of x c). rewrite sum_app, <- IH.
    change (sum_of sum_calls x (i :: c)) with ((if x =? fst i then sum_calls (snd i) else 0) + sum_of sum_calls x c).
    destruct (x =? fst i); reflexivity.
  Qed.
  Lemma sum_events x l : total (map (of_event sum_calls x) l) = sum_calls (all_calls x l).
  Proof.
    induction l as [|e l IH]; auto. change (all_calls x (e :: l)) with (calls_in x e ++ all_calls x l). rewrite sum_app, <- IH.
    change (total (map (of_event sum_calls x) (e :: l))) with (of_event sum_calls x e + total (map (of_event sum_calls x) l)).
    f_equal. destruct e; try reflexivity. apply sum_chain.
  Qed.
End Calls.

Lemma calls_fold (f : load -> Z) (h : call -> Z) : (forall m c, u64 (f (called m c)) = u64 (f m + h c)) ->
  forall l m, u64 (f (fold_left called l m)) = u64 (f m + sum_calls h l).
Proof.
  intros H. induction l as [|c l IH]; intros m; cbn; [now rewrite Z.add_0_r |]. rewrite IH. rewrite <- u64_l, H, u64_l. unfold sum_calls. cbn. now rewrite Z.add_assoc.
Qed.
Ltac field h := intros; rewrite <- (sum_events h); refine (mod_total _ (sum_calls h) _ _ _ _ _ _); [reflexivity | reflexivity |
  intros; cbn [share d_bytes d_err d_calls d_fuel d_out]; unfold instance_load; rewrite (calls_fold _ h); [now cbn | intros; cbn; rewrite ?u64_u64; reflexivity]].
Lemma mod_bytes t l x : d_bytes (shown (s_mod (metered (fresh t) l)) x) = u64 (total (map k_bytes (all_calls x l))).
Proof. change (total (map k_bytes (all_calls x l))) with (sum_calls k_bytes (all_calls x l)). field k_bytes. Qed.
Lemma mod_fuel t l x : d_fuel (shown (s_mod (metered (fresh t) l)) x) = u64 (total (map k_fuel (all_calls x l))).
Proof. change (total (map k_fuel (all_calls x l))) with (sum_calls k_fuel (all_calls x l)). field k_fuel. Qed.
Lemma ones {A} (l : list A) : total (map (fun _ => 1) l) = Z.of_nat (length l).
Proof. induction l; cbn [map total fold_right length] in *; [reflexivity |]. unfold total in IHl. rewrite IHl. lia. Qed.
Lemma mod_calls t l x : d_calls (shown (s_mod (metered (fresh t) l)) x) = u64 (Z.of_nat (length (all_calls x l))).
Proof. rewrite <- ones. change (total (map (fun _ => 1) (all_calls x l))) with (sum_calls (fun _ => 1) (all_calls x l)). field (fun _ : call => 1). Qed.
Lemma fails (l : list call) : total (map (fun c => if k_failed c then 1 else 0) l) = Z.of_nat (length (filter k_failed l)).
Proof. induction l as [|c l IH]; auto. cbn [map total fold_right filter]. unfold total in IH. rewrite IH. destruct (k_failed c); cbn [length]; lia. Qed.
Lemma mod_err t l x : d_err (shown (s_mod (metered (fresh t) l)) x) = u64 (Z.of_nat (length (filter k_failed (all_calls x l)))).
Proof.
  rewrite <- fails. change (total (map (fun c => if k_failed c then 1 else 0) (all_calls x l))) with (sum_calls (fun c => if k_failed c then 1 else 0) (all_calls x l)).
  field (fun c : call => if k_failed c then 1 else 0).
Qed.
Lemma zeros {A} (l : list A) : total (map (fun _ => 0) l) = 0.
Proof. induction l; auto. Qed.
Lemma mod_out t l x : d_out (shown (s_mod (metered (fresh t) l)) x) = 0.
Proof.
  transitivity (u64 (sum_calls (fun _ => 0) (all_calls x l))); [| unfold sum_calls; rewrite zeros; apply u64_0].
  revert t l x. assert (H : forall t l x, d_out (shown (s_mod (metered (fresh t) l)) x) = u64 (sum_calls (fun _ => 0) (all_calls x l))); auto.
  intros t l x. rewrite <- (sum_events (fun _ => 0)). refine (mod_total _ (sum_calls (fun _ => 0)) _ _ _ _ _ _); [reflexivity | reflexivity |].
  intros. cbn [share d_out]. unfold instance_load. rewrite (calls_fold _ (fun _ => 0)); [now cbn | intros; cbn; now rewrite Z.add_0_r].
Qed.
Lemma calls_ms l : forall m, u64 (d_ms m) = d_ms m -> d_ms (fold_left called l m) = u64 (d_ms m + total (map (fun c => Z.max (k_ms c) 1) l)).
Proof.
  induction l as [|c l IH]; intros m H; cbn [fold_left map total fold_right]; [now rewrite Z.add_0_r |]. rewrite IH; cbn; [| apply u64_u64]. rewrite u64_l, Z.add_assoc. reflexivity.
Qed.
Lemma mod_ms t l x : d_ms (shown (s_mod (metered (fresh t) l)) x) =
  u64 (total (map (fun e => match e with Process _ c _ => total (map (fun i => if x =? fst i then instance_ms (snd i) else 0) c) | _ => 0 end) l)).
Proof.
  refine (mod_total _ instance_ms _ _ _ _ _ _); [reflexivity | reflexivity |]. intros. cbn. unfold instance_load. rewrite calls_ms; [reflexivity | apply u64_0].
Qed.

(** which modules are listed *)
Lemma export_listed c : forall t x, fold_left (fun t i => put (fst i) (share (instance_load (snd i))) t) c t x <> None <-> t x <> None \/ In x (map fst c).
Proof.
  induction c as [|i c IH]; intros t x; cbn; [tauto |]. rewrite IH. unfold put. destruct (x =? fst i) eqn:E.
  - apply Z.eqb_eq in E. split; [intros _; auto | intros _; left; discriminate].
  - apply Z.eqb_neq in E. split; [intros [H|H]; auto | intros [H|[H|H]]; auto; congruence].
Qed.
Lemma listed t l x : s_mod (metered (fresh t) l) x <> None <-> Exists (named x) l.
Proof.
  assert (G : forall l s, s_mod (metered s l) x <> None <-> s_mod s x <> None \/ Exists (named x) l).
  { clear t l. induction l as [|e l IH]; intros s; cbn [metered fold_left].
    - rewrite Exists_nil. tauto.
    - change (fold_left meter l (meter s e)) with (metered (meter s e) l). rewrite IH, Exists_cons.
      assert (H : s_mod (meter s e) x <> None <-> s_mod s x <> None \/ named x e); [| tauto].
      assert (D : (exists k c w, e = Process k c w) \/ (forall k c w, e <> Process k c w)) by (destruct e; try (right; congruence); left; eauto).
      destruct D as [(k & c & w & ->)|N].
      + cbn. pose proof (export_listed c (fun _ => None) x) as L. fold (export c) in L. unfold update. destruct (export c x); [destruct (s_mod s x) |].
        * split; [intros _; left; discriminate | intros _; discriminate].
        * split; [intros _; right; destruct (proj1 L ltac:(discriminate)); [congruence | auto] | intros _; discriminate].
        * split; [auto | intros [H|H]; auto; exfalso; apply (proj2 L); auto].
      + rewrite mod_same by auto. split; auto. intros [H|H]; auto. destruct e; cbn in H; try tauto. exfalso. now eapply N. }
  rewrite G. cbn. split; [intros [H|H]; [congruence | auto] | auto].
Qed.

(** ** Examples and what is not so *)
Definition logs : Z -> plog := fun _ => mkLog 0 0 0.
Definition used_log : Z -> plog := fun _ => mkLog 0 10 12.

Lemma raw_refuted : ~ (forall s p k d len, good s -> len <> 0 -> 0 <= d <= p_hw (s_log s p) - p_start (s_log s p) ->
  c_records (side k (s_out (meter s (Stream p k d len)))) = u64 (c_records (side k (s_out s)) + d)).
Proof.
  intros C. specialize (C (fresh used_log) 0 true 1 50 (fresh_good _) ltac:(discriminate) ltac:(cbn; lia)).
  apply raw_iff in C; cbn in *; try lia. apply fresh_good.
Qed.
Lemma twice_refuted : ~ (forall t p k d len, p_start (t p) = 0 -> p_hw (t p) = 2 * d -> 0 < d < 100 -> len <> 0 ->
  c_records (side k (s_out (metered (fresh t) [Stream p k d len; Stream p k d len]))) = 2 * d).
Proof.
  intros C. specialize (C used_log 0 false 5 50 eq_refl eq_refl ltac:(lia) ltac:(discriminate)). cbn in C. rewrite ?u64_r, ?u64_l, ?u64_r in C. rewrite u64_small in C by lia. lia.
Qed.
Lemma dropped_refuted : ~ (forall s p k b, good s -> c_records (side k (s_in (meter s (Write p k 0 b)))) = c_records (side k (s_in s))).
Proof.
  intros C. specialize (C (fresh used_log) 0 true 0 (fresh_good _)). destruct (dropped (fresh used_log) 0 true 0 (fresh_good _)) as (_ & B & _).
  rewrite B in C. cbn in C. rewrite u64_small in C; lia.
Qed.
Lemma out_refuted : ~ (forall t k c w x, In x (map fst c) -> d_out (shown (s_mod (metered (fresh t) [Process k c w])) x) = Z.of_nat (length w)).
Proof. intros C. specialize (C logs true [(1, [])] [(1, 1)] 1 (or_introl eq_refl)). rewrite mod_out in C. discriminate. Qed.
Lemma broken_refuted : ~ (forall t c x, d_calls (shown (s_mod (metered (fresh t) [Break c])) x) = u64 (Z.of_nat (length (calls_of x c)))).
Proof. intros C. specialize (C logs [(1, [mkCall 1 false 1 1])] 1). cbn in C. rewrite u64_small in C by lia. discriminate. Qed.
Lemma idle_refuted : ~ (forall t k x, d_ms (shown (s_mod (metered (fresh t) [Process k [(x, [])] []])) x) = 0).
Proof. intros C. specialize (C logs true 1). rewrite mod_ms in C. cbn in C. unfold instance_ms in C. cbn in C. rewrite u64_0 in C. cbn in C. rewrite u64_small in C by lia. discriminate. Qed.
