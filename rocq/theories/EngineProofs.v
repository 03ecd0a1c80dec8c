(** Proofs about the SmartModule engine. *)
From Verif Require Import StorageSpec RecordSpec RecordProofs StorageProofs ReplicaProofs StorageClaims ReplicationClaims ListFacts.
From Verif Require Import StreamModel StreamSpec StreamProofs StreamClaims LookbackModel LookbackSpec LookbackProofs.
From Verif Require Import EngineModel EngineSpec.

Definition rkv (r : rec) : kv := (r_key r, r_val r).

(** * Modules and chains *)
Lemma apply_one i base ts r i' vs : one i (show base ts r) = Some (i', vs) ->
  exists out, apply_fun i base ts r = (i', Emit out) /\ map rkv out = map pair_of vs /\ (is_array i = false -> map (show base ts) out = vs).
Proof.
  unfold one, apply_fun, answer, is_array. destruct (n_fun i) as [f|f|f|f|f].
  - destruct (f (n_mem i) _) as [m [b| |]]; cbn [fst snd]; intros E; inversion E; subst. eexists. split; [reflexivity|]. destruct b; auto.
  - destruct (f (n_mem i) _) as [m [b| |]]; cbn [fst snd]; intros E; inversion E; subst. eexists. split; [reflexivity|]. destruct b; auto.
  - destruct (f (n_mem i) _) as [m [b| |]]; cbn [fst snd]; intros E; inversion E; subst. eexists. split; [reflexivity|]. destruct b as [[k v]|]; auto.
  - destruct (f (n_mem i) _) as [m [b| |]]; cbn [fst snd]; intros E; inversion E; subst. eexists. split; [reflexivity|]. split; [|discriminate].
    rewrite !map_map. apply map_ext. intros [k v]. reflexivity.
  - destruct (f (n_mem i) (n_acc i) _) as [m [b| |]]; cbn [fst snd]; intros E; inversion E; subst. eexists. split; [reflexivity|]. auto.
Qed.
Lemma apply_rejects i base ts r : rejects i (show base ts r) -> exists i', apply_fun i base ts r = (i', Wrong) /\ n_fun i' = n_fun i.
Proof.
  unfold rejects, apply_fun. destruct (n_fun i) as [f|f|f|f|f] eqn:EF; intros E; cbv zeta; rewrite E; eexists; (split; [reflexivity|exact EF || (cbn; congruence)]).
Qed.
Lemma one_fun i v i' vs : one i v = Some (i', vs) -> n_fun i' = n_fun i.
Proof.
  unfold one, answer. destruct (n_fun i) as [f|f|f|f|f] eqn:EF; try (destruct (f (n_mem i) v) as [m [b| |]]; cbn; intros E; inversion E; subst; cbn; congruence).
  destruct (f (n_mem i) (n_acc i) v) as [m [b| |]]; cbn; intros E; inversion E; subst; cbn; congruence.
Qed.
Lemma over_fun l : forall i i' vs, over i l = Some (i', vs) -> n_fun i' = n_fun i.
Proof.
  induction l as [|v l IH]; cbn [over]; intros i i' vs E; [inversion E; subst; reflexivity|].
  destruct (one i v) as [[i1 a]|] eqn:E1; [|discriminate]. destruct (over i1 l) as [[i2 b]|] eqn:E2; [|discriminate]. inversion E; subst.
  rewrite (IH _ _ _ E2). eapply one_fun. exact E1.
Qed.
Lemma whole_funs is : forall l is' vs, whole is l = Some (is', vs) -> map n_fun is' = map n_fun is.
Proof.
  induction is as [|i t IH]; cbn [whole]; intros l is' vs E; [inversion E; subst; reflexivity|].
  destruct (over i l) as [[i1 a]|] eqn:E1; [|discriminate]. destruct (whole t a) as [[t1 b]|] eqn:E2; [|discriminate]. inversion E; subst.
  cbn [map]. rewrite (IH _ _ _ E2), (over_fun _ _ _ _ E1). reflexivity.
Qed.
Lemma is_array_fun i i' : n_fun i' = n_fun i -> is_array i' = is_array i.
Proof. unfold is_array. intros ->. reflexivity. Qed.
Lemma arrays_last_funs is : forall is', map n_fun is' = map n_fun is -> arrays_last is -> arrays_last is'.
Proof.
  induction is as [|i t IH]; intros [|i' t'] E; try discriminate E; [auto|]. cbn [map] in E. inversion E as [[E1 E2]]. cbn [arrays_last]. intros (A & B).
  split; [|apply IH; assumption]. destruct A as [->|A]; [left; destruct t'; [reflexivity|discriminate E2]|right]. rewrite (is_array_fun i i' E1). exact A.
Qed.
Lemma no_arrays_funs is : forall is', map n_fun is' = map n_fun is -> no_arrays is -> no_arrays is'.
Proof.
  induction is as [|i t IH]; intros [|i' t'] E; try discriminate E; [auto|]. cbn [map] in E. inversion E as [[E1 E2]]. intros F. inversion F; subst.
  constructor; [rewrite (is_array_fun i i' E1); assumption|apply IH; assumption].
Qed.
Lemma no_arrays_last is : no_arrays is -> arrays_last is.
Proof. induction is as [|i t IH]; intros F; cbn [arrays_last]; [exact I|]. inversion F; subst. auto. Qed.

Lemma over_app a b : forall i i1 x i2 y, over i a = Some (i1, x) -> over i1 b = Some (i2, y) -> over i (a ++ b) = Some (i2, x ++ y).
Proof.
  induction a as [|v a IH]; cbn [over app]; intros i i1 x i2 y E1 E2; [inversion E1; subst; exact E2|].
  destruct (one i v) as [[j o]|]; [|discriminate]. destruct (over j a) as [[j2 o2]|] eqn:E; [|discriminate]. inversion E1; subst.
  rewrite (IH _ _ _ _ _ E E2), app_assoc. reflexivity.
Qed.
Lemma over_cut a b : forall i i2 z, over i (a ++ b) = Some (i2, z) -> exists i1 x y, over i a = Some (i1, x) /\ over i1 b = Some (i2, y) /\ z = x ++ y.
Proof.
  induction a as [|v a IH]; cbn [over app]; intros i i2 z E; [eauto 6|].
  destruct (one i v) as [[j o]|]; [|discriminate]. destruct (over j (a ++ b)) as [[j2 o2]|] eqn:E1; [|discriminate]. inversion E; subst.
  destruct (IH _ _ _ E1) as (i1 & x & y & -> & E2 & ->). exists i1, (o ++ x), y. rewrite app_assoc. auto.
Qed.
Lemma whole_app is : forall a b is1 x is2 y, whole is a = Some (is1, x) -> whole is1 b = Some (is2, y) -> whole is (a ++ b) = Some (is2, x ++ y).
Proof.
  induction is as [|i t IH]; cbn [whole]; intros a b is1 x is2 y E1 E2; [inversion E1; subst; cbn [whole] in E2; inversion E2; subst; reflexivity|].
  destruct (over i a) as [[j o]|] eqn:O1; [|discriminate]. destruct (whole t o) as [[t1 p]|] eqn:W1; [|discriminate]. inversion E1; subst. cbn [whole] in E2.
  destruct (over j b) as [[j2 o2]|] eqn:O2; [|discriminate]. destruct (whole t1 o2) as [[t2 p2]|] eqn:W2; [|discriminate]. inversion E2; subst.
  rewrite (over_app _ _ _ _ _ _ _ O1 O2), (IH _ _ _ _ _ _ W1 W2). reflexivity.
Qed.
Lemma whole_cut is : forall a b is2 z, whole is (a ++ b) = Some (is2, z) -> exists is1 x y, whole is a = Some (is1, x) /\ whole is1 b = Some (is2, y) /\ z = x ++ y.
Proof.
  induction is as [|i t IH]; cbn [whole]; intros a b is2 z E; [inversion E; subst; exists [], a, b; auto|].
  destruct (over i (a ++ b)) as [[j o]|] eqn:O1; [|discriminate]. destruct (whole t o) as [[t1 p]|] eqn:W1; [|discriminate]. inversion E; subst.
  destruct (over_cut _ _ _ _ _ O1) as (i1 & x & y & OA & OB & ->). destruct (IH _ _ _ _ W1) as (u1 & x' & y' & WA & WB & ->).
  exists (i1 :: u1), x', y'. rewrite OA, WA. split; [reflexivity|]. cbn [whole]. rewrite OB, WB. auto.
Qed.
Lemma whole_join f g : forall l f' m g' o, whole f l = Some (f', m) -> whole g m = Some (g', o) -> whole (f ++ g) l = Some (f' ++ g', o).
Proof.
  induction f as [|i t IH]; cbn [whole app]; intros l f' m g' o E1 E2; [inversion E1; subst; exact E2|].
  destruct (over i l) as [[j p]|]; [|discriminate]. destruct (whole t p) as [[t1 q]|] eqn:W; [|discriminate]. inversion E1; subst.
  rewrite (IH _ _ _ _ _ W E2). reflexivity.
Qed.

Lemma run_module_ok base ts l : forall i i' vs, over i (map (show base ts) l) = Some (i', vs) ->
  exists out, run_module i base ts l = Some (i', out, None) /\ map rkv out = map pair_of vs /\ (is_array i = false -> map (show base ts) out = vs).
Proof.
  induction l as [|r l IH]; cbn [map over run_module]; intros i i' vs E; [inversion E; subst; exists []; auto|].
  destruct (one i (show base ts r)) as [[i1 a]|] eqn:E1; [|discriminate]. destruct (over i1 _) as [[i2 b]|] eqn:E2; [|discriminate]. inversion E; subst.
  destruct (apply_one _ _ _ _ _ _ E1) as (o1 & -> & K1 & S1). destruct (IH _ _ _ E2) as (o2 & -> & K2 & S2). exists (o1 ++ o2). split; [reflexivity|].
  rewrite !map_app, K1, K2. split; [reflexivity|]. intros A. rewrite S1, S2; [reflexivity| |assumption]. rewrite (is_array_fun i i1); [assumption|]. eapply one_fun. exact E1.
Qed.
Lemma run_chain_ok base ts is : forall l is' vs, arrays_last is -> whole is (map (show base ts) l) = Some (is', vs) ->
  exists out, run_chain is base ts l = Some (is', out, None) /\ map rkv out = map pair_of vs /\ (no_arrays is -> map (show base ts) out = vs).
Proof.
  induction is as [|i t IH]; cbn [whole run_chain arrays_last]; intros l is' vs A E.
  { inversion E; subst. exists l. split; [reflexivity|]. split; [rewrite map_map; reflexivity|reflexivity]. }
  destruct A as (A & AL). destruct (over i _) as [[i1 a]|] eqn:E1; [|discriminate]. destruct (whole t a) as [[t1 b]|] eqn:E2; [|discriminate]. inversion E; subst.
  destruct (run_module_ok _ _ _ _ _ _ E1) as (o1 & -> & K1 & S1). destruct A as [->|A].
  - cbn [whole] in E2. inversion E2; subst. cbn [run_chain]. exists o1. split; [reflexivity|]. split; [assumption|]. intros F. apply Forall_inv in F. auto.
  - rewrite <- (S1 A) in E2. destruct (IH _ _ _ AL E2) as (o2 & -> & K2 & S2). exists o2. split; [reflexivity|]. split; [assumption|]. intros F. apply Forall_inv_tail in F. auto.
Qed.

(** * Sizes *)
Lemma vsize_bound f : forall v acc x, vsize_loop f v acc = Some x -> x <= acc + Z.of_nat f.
Proof.
  induction f as [|f IH]; intros v acc x; cbn [vsize_loop]; [discriminate|]. destruct (_ =? 0); intros E; [inversion E; lia|]. apply IH in E. lia.
Qed.
Lemma varint_size_bound n : varint_size n <= 1 + Z.of_nat varint_fuel.
Proof. unfold varint_size. destruct (vsize_loop _ _ _) as [x|] eqn:E; cbn [option_get]; [apply vsize_bound in E; lia|lia]. Qed.
Definition kv_len (p : kv) : Z := key_len (fst p) + zlen (snd p) + 100.
Fixpoint bulk_kv (l : list kv) : Z := match l with [] => 0 | p :: t => kv_len p + bulk_kv t end.
Lemma bulk_pairs vs : bulk vs = bulk_kv (map pair_of vs).
Proof. induction vs as [|v vs IH]; cbn [bulk bulk_kv map]; [reflexivity|]. rewrite IH. reflexivity. Qed.
Lemma bulk_kv_app a b : bulk_kv (a ++ b) = bulk_kv a + bulk_kv b.
Proof. induction a as [|p a IH]; cbn [bulk_kv app]; lia. Qed.
Lemma kv_len_pos p : 100 <= kv_len p.
Proof. unfold kv_len. destruct p as [[k|] v]; cbn [fst snd key_len]; pose proof (zlen_nonneg v); try pose proof (zlen_nonneg k); lia. Qed.
Lemma bulk_kv_pos l : 0 <= bulk_kv l.
Proof. induction l as [|p l IH]; cbn [bulk_kv]; [lia|]. pose proof (kv_len_pos p). lia. Qed.
Lemma rec_size_bound r : c_size rec_codec r <= kv_len (rkv r) - 20.
Proof.
  unfold kv_len, rkv. cbn [fst snd]. pose proof varint_size_bound as V. change (1 + Z.of_nat varint_fuel) with 11 in V.
  cbn [rec_codec c_size]. pose proof (V (c_size body_tuple_codec (rec_tuple r))). unfold body_tuple_codec, rec_tuple in *. cbn [pair_codec c_size fst snd varint_codec record_data_codec] in *.
  pose proof (V (r_ts r)). pose proof (V (r_off r)). pose proof (V (r_headers r)). pose proof (V (zlen (r_val r))).
  destruct (r_key r) as [k|]; cbn [option_codec c_size record_data_codec key_len] in *.
  - pose proof (V (zlen k)). change (c_size i8_codec (r_attr r)) with 1 in *. lia.
  - change (c_size i8_codec (r_attr r)) with 1 in *. lia.
Qed.
Lemma recs_size_bound l : l <> [] -> c_size memory_codec l <= bulk_kv (map rkv l).
Proof.
  assert (forall k a, fold_left (fun s r => s + c_size rec_codec r) k a <= a + bulk_kv (map rkv k) - 20 * zlen k) as G.
  { induction k as [|r k IH]; intros a; cbn [fold_left map bulk_kv]; [change (zlen (@nil rec)) with 0; lia|]. specialize (IH (a + c_size rec_codec r)). pose proof (rec_size_bound r). rewrite zlen_cons. lia. }
  intros NE. unfold memory_codec. cbn [vec_codec c_size]. unfold vec_size. specialize (G l 4). destruct l as [|r l]; [contradiction|]. rewrite zlen_cons in G. pose proof (zlen_nonneg l). lia.
Qed.
Lemma rkv_add x l : map rkv (map (add_base_offset x) l) = map rkv l.
Proof. rewrite map_map. apply map_ext. reflexivity. Qed.

(** * Batches *)
Lemma log_of_app A B : log_of (A ++ B) = log_of A ++ log_of B.
Proof. unfold log_of. rewrite flat_map_app, map_app. reflexivity. Qed.
Lemma log_of_cons b B : log_of (b :: B) = log_of [b] ++ log_of B.
Proof. apply (log_of_app [b] B). Qed.
Lemma batch_input b : numbered b -> exists m, to_memory (received raw_codec b) = Ok m
  /\ map (show (b_base b) (h_first_ts (b_hdr b))) (b_recs m) = log_of [b].
Proof.
  intros (m & T & P). destruct (received_memory b m T) as (m' & T' & R & _). exists m'. split; [exact T'|]. rewrite R.
  pose proof (numbered_stamps b m T P) as E. unfold log_of. cbn [flat_map]. rewrite app_nil_r.
  apply (f_equal (map (fun p => mkSeen (e_off p) (e_ts p) (r_key (e_rec p)) (r_val (e_rec p))))) in E. rewrite !map_map in E. exact E.
Qed.

(** The batch under construction after everything up to [x]: it holds [ws]. *)
Definition holding (lo x : Z) (ws : list kv) (a : outb) : Prop :=
  (a = out0 /\ ws = []) \/ (lo <= q_base a /\ q_base a + q_delta a + 1 = x /\ map rkv (q_recs a) = ws /\ ws <> [] /\ q_bytes a <= bulk_kv ws).

(** What happens with the output of one batch. *)
Lemma take_in lo x ws a b out mx : 0 <= lo <= x -> b_base b = x -> 0 < records_len b -> holding lo x ws a -> bulk_kv (ws ++ map rkv out) <= mx ->
  exists a', holding lo (batch_end b) (ws ++ map rkv out) a' /\
  forall (is : list inst) (e : option smerr) (go : outb -> option (list inst * outb * option smerr)),
    match out with
    | [] => go (if q_base a =? -1 then a else mkOut (q_base a) (q_delta a + (h_last_delta (b_hdr b) + 1)) (q_recs a) (q_bytes a))
    | _ => let base := if q_base a =? -1 then b_base b else q_base a in
           let recs := map (add_base_offset (base - b_base b)) out in
           let size := c_size memory_codec recs in
           if mx <? q_bytes a + size then Some (is, mkOut base (q_delta a) (q_recs a) (q_bytes a), e)
           else go (add_out a base (h_last_delta (b_hdr b) + 1) recs size)
    end = go a'.
Proof.
  intros LO EB P HD SZ. rewrite (chain_delta b P). unfold batch_end. rewrite EB. rewrite bulk_kv_app in SZ.
  destruct out as [|r out].
  - cbn [map]. rewrite app_nil_r. destruct HD as [(-> & ->)|(H1 & H2 & H3 & H4 & H5)].
    + exists out0. split; [left; auto|]. reflexivity.
    + replace (q_base a =? -1) with false by lia. eexists. split; [|reflexivity]. right. cbn [q_base q_delta q_recs q_bytes]. repeat split; auto; lia.
  - pose proof (recs_size_bound (map (add_base_offset ((if q_base a =? -1 then x else q_base a) - x)) (r :: out)) ltac:(discriminate)) as SB. rewrite rkv_add in SB.
    cbv zeta. set (base := if q_base a =? -1 then x else q_base a) in *. set (recs := map (add_base_offset (base - x)) (r :: out)) in *.
    assert (map rkv recs = map rkv (r :: out)) as RK by apply rkv_add.
    assert (q_bytes a <= bulk_kv ws) as QB. { destruct HD as [(-> & ->)|(_ & _ & _ & _ & H5)]; [cbn; lia|exact H5]. }
    exists (add_out a base (records_len b) recs (c_size memory_codec recs)). split.
    + right. unfold add_out. cbn [q_base q_delta q_recs q_bytes]. unfold base. destruct HD as [(-> & ->)|(H1 & H2 & H3 & H4 & H5)].
      * cbn [out0 q_base q_delta q_recs q_bytes app]. change (-1 =? -1) with true. cbv iota. split; [lia|]. split; [lia|]. split; [exact RK|]. split; [discriminate|]. lia.
      * replace (q_base a =? -1) with false by lia. split; [lia|]. split; [lia|]. rewrite map_app, H3, RK. split; [reflexivity|]. split; [destruct ws; discriminate || contradiction|]. rewrite bulk_kv_app. lia.
    + intros is e go. replace (mx <? q_bytes a + c_size memory_codec recs) with false by lia. reflexivity.
Qed.

Lemma engine_ok mx lo tl sel : forall is is' vs x q ws a, 0 <= lo <= x -> chain x sel q -> Forall numbered sel -> arrays_last is ->
  whole is (log_of sel) = Some (is', vs) -> holding lo x ws a -> bulk_kv (ws ++ map pair_of vs) <= mx ->
  exists a', engine_from is mx (map (received raw_codec) sel ++ tl) a = engine_from is' mx tl a' /\ holding lo q (ws ++ map pair_of vs) a'.
Proof.
  induction sel as [|b sel IH]; intros is is' vs x q ws a LO CH NU AL W HD SZ.
  { cbn in CH. subst q. change (log_of []) with (@nil seen_rec) in W.
    assert (is' = is /\ vs = []) as (-> & ->).
    { clear - W. revert is' vs W. induction is as [|i t IHt]; cbn [whole over]; intros is' vs W; [inversion W; auto|].
      destruct (whole t []) as [[t1 o]|] eqn:E; [|discriminate]. inversion W; subst. destruct (IHt _ _ eq_refl) as (-> & ->). auto. }
    exists a. cbn [map app]. rewrite app_nil_r. auto. }
  cbn [chain] in CH. destruct CH as (EB & P & CH). pose proof (Forall_inv NU) as NB. apply Forall_inv_tail in NU.
  rewrite log_of_cons in W. destruct (whole_cut _ _ _ _ _ W) as (is1 & v1 & v2 & W1 & W2 & ->).
  destruct (batch_input b NB) as (m & EM & EI). rewrite <- EI in W1. destruct (run_chain_ok _ _ _ _ _ _ AL W1) as (out & RC & K & _).
  rewrite map_app, app_assoc in *. rewrite bulk_kv_app in SZ. pose proof (bulk_kv_pos (map pair_of v2)). rewrite <- K in *.
  destruct (take_in lo x ws a b out mx LO ltac:(lia) P HD ltac:(lia)) as (a1 & HD1 & TK).
  destruct (IH is1 is' v2 (x + records_len b) q (ws ++ map rkv out) a1 ltac:(lia) CH NU (arrays_last_funs _ _ (whole_funs _ _ _ _ W1) AL) W2) as (a' & E' & HD').
  { unfold batch_end in HD1. replace (b_base b) with x in HD1 by lia. exact HD1. }
  { rewrite bulk_kv_app. lia. }
  exists a'. split; [|exact HD']. rewrite <- E'. cbn [map app engine_from]. rewrite EM.
  change (b_base (received raw_codec b)) with (b_base b). change (h_first_ts (b_hdr (received raw_codec b))) with (h_first_ts (b_hdr b)).
  change (h_last_delta (b_hdr (received raw_codec b))) with (h_last_delta (b_hdr b)). rewrite RC. cbv zeta.
  exact (TK is1 None (fun a2 => engine_from is1 mx (map (received raw_codec) sel ++ tl) a2)).
Qed.

(** * Errors *)
Lemma run_chain_join g base ts f : forall l f' m, run_chain f base ts l = Some (f', m, None) ->
  run_chain (f ++ g) base ts l = match run_chain g base ts m with None => None | Some (g', o, e) => Some (f' ++ g', o, e) end.
Proof.
  induction f as [|i t IH]; cbn [run_chain app]; intros l f' m E; [inversion E; subst; destruct (run_chain g base ts m) as [[[? ?] ?]|]; reflexivity|].
  destruct (run_module i base ts l) as [[[i1 o] [e|]]|]; [inversion E| |discriminate].
  destruct (run_chain t base ts o) as [[[t1 o1] e1]|] eqn:ET; [|discriminate]. inversion E; subst. rewrite (IH _ _ _ ET). destruct (run_chain g base ts m) as [[[? ?] ?]|]; reflexivity.
Qed.
Lemma run_module_err base ts bad after l : forall i i1 outs, over i (map (show base ts) l) = Some (i1, outs) -> rejects i1 (show base ts bad) ->
  exists i2 out, run_module i base ts (l ++ bad :: after) = Some (i2, out, Some (error_of base bad)) /\ map rkv out = map pair_of outs /\ n_fun i2 = n_fun i.
Proof.
  induction l as [|r l IH]; cbn [map over app]; intros i i1 outs E RJ.
  - inversion E; subst. cbn [run_module]. destruct (apply_rejects _ _ _ _ RJ) as (i2 & -> & F). exists i2, []. auto.
  - destruct (one i (show base ts r)) as [[j a]|] eqn:E1; [|discriminate]. destruct (over j _) as [[j2 b]|] eqn:E2; [|discriminate]. inversion E; subst.
    destruct (apply_one _ _ _ _ _ _ E1) as (o1 & A1 & K1 & _). destruct (IH _ _ _ E2 RJ) as (i2 & o2 & A2 & K2 & F). cbn [run_module]. rewrite A1, A2.
    exists i2, (o1 ++ o2). split; [reflexivity|]. rewrite !map_app, K1, K2. split; [reflexivity|]. rewrite F. eapply one_fun. exact E1.
Qed.
Lemma chain_err base ts front i l f' before bad after i1 outs : no_arrays front -> whole front (map (show base ts) l) = Some (f', before ++ bad :: after) ->
  over i before = Some (i1, outs) -> rejects i1 bad ->
  exists i2 out, run_chain (front ++ [i]) base ts l = Some (f' ++ [i2], out, Some (blames bad)) /\ map rkv out = map pair_of outs /\ n_fun i2 = n_fun i.
Proof.
  intros NA W O RJ. destruct (run_chain_ok base ts front l f' _ (no_arrays_last _ NA) W) as (m & RC & _ & SH). specialize (SH NA).
  apply map_eq_app in SH as (m1 & m2 & -> & <- & SH). apply map_eq_cons in SH as (r & m3 & -> & <- & _).
  destruct (run_module_err base ts r m3 m1 i i1 outs O RJ) as (i2 & out & RM & K & F). exists i2, out. rewrite (run_chain_join _ _ _ _ _ _ _ RC). cbn [run_chain]. rewrite RM. auto.
Qed.
Lemma engine_fails mx lo tl front i b x f' before bad after i1 outs ws a : 0 <= lo <= x -> b_base b = x -> 0 < records_len b -> numbered b -> no_arrays front ->
  whole front (log_of [b]) = Some (f', before ++ bad :: after) -> over i before = Some (i1, outs) -> rejects i1 bad ->
  holding lo x ws a -> bulk_kv (ws ++ map pair_of outs) <= mx ->
  exists i2 a', engine_from (front ++ [i]) mx (received raw_codec b :: tl) a = Some (f' ++ [i2], a', Some (blames bad))
    /\ holding lo (batch_end b) (ws ++ map pair_of outs) a' /\ n_fun i2 = n_fun i.
Proof.
  intros LO EB P NB NA W O RJ HD SZ. destruct (batch_input b NB) as (m & EM & EI). rewrite <- EI in W.
  destruct (chain_err _ _ _ _ _ _ _ _ _ _ _ NA W O RJ) as (i2 & out & RC & K & F). rewrite <- K in *.
  destruct (take_in lo x ws a b out mx LO EB P HD SZ) as (a' & HD' & TK). exists i2, a'. split; [|auto].
  cbn [engine_from]. rewrite EM. change (b_base (received raw_codec b)) with (b_base b). change (h_first_ts (b_hdr (received raw_codec b))) with (h_first_ts (b_hdr b)).
  change (h_last_delta (b_hdr (received raw_codec b))) with (h_last_delta (b_hdr b)). rewrite RC. cbv zeta.
  exact (TK (f' ++ [i2]) (Some (blames bad)) (fun a2 => Some (f' ++ [i2], a2, Some (blames bad)))).
Qed.

(** The batch in which the failing record is. *)
Lemma app_mid {A} (m1 : list A) : forall m2 before bad after, m1 ++ m2 = before ++ bad :: after ->
  (exists b', before = m1 ++ b' /\ m2 = b' ++ bad :: after) \/ (exists a', m1 = before ++ bad :: a').
Proof.
  induction m1 as [|x m1 IH]; intros m2 before bad after E; [left; exists before; auto|].
  destruct before as [|y before]; cbn [app] in E; inversion E; subst; [right; exists m1; reflexivity|].
  destruct (IH _ _ _ _ H1) as [(b' & -> & ->)|(a' & ->)]; [left; exists b'; auto|right; exists a'; reflexivity].
Qed.
Lemma find_batch i bad sel : forall front f' before after i0 i1 outs, whole front (log_of sel) = Some (f', before ++ bad :: after) -> over i0 before = Some (i1, outs) -> n_fun i0 = i ->
  exists s1 b s2 f1 m1 j o1 o2 before' after' f2, sel = s1 ++ b :: s2 /\ whole front (log_of s1) = Some (f1, m1) /\ over i0 m1 = Some (j, o1)
    /\ whole f1 (log_of [b]) = Some (f2, before' ++ bad :: after') /\ over j before' = Some (i1, o2) /\ outs = o1 ++ o2.
Proof.
  induction sel as [|b sel IH]; intros front f' before after i0 i1 outs W O F.
  { assert (forall is l', whole is [] = Some l' -> snd l' = []) as N.
    { induction is as [|k t IHt]; cbn [whole over]; intros l' E; [inversion E; reflexivity|]. destruct (whole t []) as [[t1 o]|] eqn:E1; [|discriminate]. inversion E; subst. exact (IHt _ eq_refl). }
    apply N in W. cbn [snd] in W. destruct before; discriminate W. }
  rewrite log_of_cons in W. destruct (whole_cut _ _ _ _ _ W) as (f1 & m1 & m2 & W1 & W2 & E). destruct (app_mid _ _ _ _ _ (eq_sym E)) as [(b' & -> & ->)|(a' & ->)].
  - destruct (over_cut _ _ _ _ _ O) as (j & o1 & o2 & O1 & O2 & ->).
    destruct (IH _ _ _ _ _ _ _ W2 O2) as (s1 & b1 & s2 & g1 & n1 & k & p1 & p2 & bf & af & g2 & -> & X1 & X2 & X3 & X4 & ->); [rewrite (over_fun _ _ _ _ O1); exact F|].
    exists (b :: s1), b1, s2, g1, (m1 ++ n1), k, (o1 ++ p1), p2, bf, af, g2. split; [reflexivity|]. split; [rewrite log_of_cons; eapply whole_app; eassumption|].
    split; [eapply over_app; eassumption|]. split; [assumption|]. split; [assumption|]. apply app_assoc.
  - exists [], b, sel, front, [], i0, [], outs, before, a', f1. split; [reflexivity|]. split.
    + clear. change (log_of []) with (@nil seen_rec). induction front as [|k t IHt]; cbn [whole over]; [reflexivity|]. rewrite IHt. reflexivity.
    + split; [reflexivity|]. auto.
Qed.

(** Offsets are kept. *)
Lemma one_off i v i' vs w : one i v = Some (i', vs) -> In w vs -> v_off w = v_off v.
Proof.
  unfold one, answer. destruct (n_fun i) as [f|f|f|f|f].
  - destruct (f (n_mem i) v) as [m [b| |]]; cbn; intros E; inversion E; subst. destruct b; cbn; [intros [<-|[]]; reflexivity|contradiction].
  - destruct (f (n_mem i) v) as [m [b| |]]; cbn; intros E; inversion E; subst. cbn. intros [<-|[]]; reflexivity.
  - destruct (f (n_mem i) v) as [m [b| |]]; cbn; intros E; inversion E; subst. destruct b; cbn; [intros [<-|[]]; reflexivity|contradiction].
  - destruct (f (n_mem i) v) as [m [b| |]]; cbn; intros E; inversion E; subst. intros IN. apply in_map_iff in IN as (p & <- & _). reflexivity.
  - destruct (f (n_mem i) (n_acc i) v) as [m [b| |]]; cbn; intros E; inversion E; subst. cbn. intros [<-|[]]; reflexivity.
Qed.
Lemma over_off l : forall i i' vs w, over i l = Some (i', vs) -> In w vs -> exists v, In v l /\ v_off w = v_off v.
Proof.
  induction l as [|v l IH]; cbn [over]; intros i i' vs w E IN; [inversion E; subst; contradiction|].
  destruct (one i v) as [[j a]|] eqn:E1; [|discriminate]. destruct (over j l) as [[j2 b]|] eqn:E2; [|discriminate]. inversion E; subst.
  apply in_app_or in IN as [IN|IN]; [exists v; split; [left; reflexivity|eapply one_off; eassumption]|].
  destruct (IH _ _ _ _ E2 IN) as (u & IU & EU). exists u. split; [right; assumption|assumption].
Qed.
Lemma whole_off is : forall l is' vs w, whole is l = Some (is', vs) -> In w vs -> exists v, In v l /\ v_off w = v_off v.
Proof.
  induction is as [|i t IH]; cbn [whole]; intros l is' vs w E IN; [inversion E; subst; eauto|].
  destruct (over i l) as [[j a]|] eqn:E1; [|discriminate]. destruct (whole t a) as [[t1 b]|] eqn:E2; [|discriminate]. inversion E; subst.
  destruct (IH _ _ _ _ E2 IN) as (u & IU & ->). eapply over_off; eassumption.
Qed.
Lemma log_off b v : honest b -> In v (log_of [b]) -> b_base b <= v_off v < batch_end b.
Proof.
  intros HO IN. unfold log_of in IN. cbn [flat_map] in IN. rewrite app_nil_r in IN. apply in_map_iff in IN as (x & <- & IN).
  pose proof (consecutive_in _ _ _ (stamped_consecutive b) IN) as R. rewrite (stamped_len b HO) in R. exact R.
Qed.

(** * Responses *)
Lemma told_shown s ts l : forall base i, s <= base + i ->
  map told (map GRec (filter (fun c => s <=? cr_offset c) (consumer_records_from base 0 ts i l))) = map inl (map rkv l).
Proof.
  induction l as [|r l IH]; intros base i SB; [reflexivity|]. cbn [consumer_records_from filter cr_offset map].
  replace (s <=? base + i) with true by lia. cbn [map told cr_rec]. rewrite IH by lia. reflexivity.
Qed.
Lemma told_give s a ts e lo x ws : s <= lo -> holding lo x ws a -> map told (give s (mkBatch (q_base a) 0 (with_last_delta default_header ts) 0 (q_recs a), e)) = map inl ws ++ match e with Some e => [inr e] | None => [] end.
Proof.
  intros SL HD. unfold give. cbn [fst snd]. rewrite map_app. f_equal; [|destruct e; reflexivity]. unfold into_consumer_records. cbn [b_base b_hdr b_recs].
  destruct HD as [(-> & ->)|(H1 & H2 & H3 & H4 & H5)]; [reflexivity|]. rewrite told_shown by lia. rewrite H3. reflexivity.
Qed.

Lemma whole_nil is : whole is [] = Some (is, []).
Proof. induction is as [|i t IH]; cbn [whole over]; [reflexivity|]. rewrite IH. reflexivity. Qed.

Section Response.
  Context (c : config) (iso : isolation) (mx s : Z) (r : replica) (H : list (batch bytes)) (t : stream).
  Hypothesis CO : config_ok c.
  Hypothesis LG : logged c r H.
  Hypothesis NU : Forall numbered H.
  Hypothesis RE : in_reach r H t.
  Hypothesis POS : 0 <= s <= t_pos t.
  Hypothesis LIM : t_pos t <= log_limit iso r.

  (** the batches that are read *)
  Lemma reads : exists q sl, read_partition_slice r (t_pos t) u32_max iso = Done sl /\ slice_end iso sl = log_limit iso r
    /\ match sl_bytes sl with Some b => b | None => [] end = encs (ahead iso (t_pos t) r H)
    /\ batches_between (t_pos t) q H = ahead iso (t_pos t) r H /\ t_pos t <= q <= log_limit iso r /\ batches_between q (log_limit iso r) H = []
    /\ (ahead iso (t_pos t) r H <> [] -> chain (t_pos t) (ahead iso (t_pos t) r H) q
        /\ receive (encs (ahead iso (t_pos t) r H)) = map (received raw_codec) (ahead iso (t_pos t) r H)
        /\ encs (ahead iso (t_pos t) r H) <> []).
  Proof.
    destruct RE as (AC & LS & AL). pose proof (logged_chain _ _ _ LG) as CH.
    assert (c_seg_max c < 2 ^ 31) as SM by (destruct CO; lia).
    destruct (read_slice c r H iso u32_max (t_pos t) CO LG ltac:(lia) ltac:(left; unfold u32_max; lia)) as (q & sl & p' & RD & SE & SB & Q & NE & _ & SZ & OK & ONE).
    specialize (ONE AC). assert (batches_between (t_pos t) q H = ahead iso (t_pos t) r H) as EA.
    { unfold ahead. rewrite <- (bb_join _ _ _ (t_pos t) q (log_limit iso r) CH) by lia. rewrite ONE, app_nil_r. reflexivity. }
    rewrite EA in SB, NE, SZ, OK. exists q, sl. split; [exact RD|]. split; [exact SE|]. split; [exact SB|]. split; [exact EA|]. split; [exact Q|]. split; [exact ONE|].
    intros N. destruct (NE N) as (CS & PP). split; [|split; [apply (receive_encs _ (c_seg_max c)); assumption|]].
    - assert (p' = t_pos t) as EP; [|rewrite EP in CS; exact CS]. destruct (ahead iso (t_pos t) r H) as [|b B] eqn:EB; [contradiction|]. cbn [chain] in CS. destruct CS as (E & P & CS).
      assert (In b H /\ t_pos t < batch_end b) as (IB & EB2).
      { assert (In b (ahead iso (t_pos t) r H)) as IN by (rewrite EB; left; reflexivity). unfold ahead, batches_between in IN. apply filter_In in IN as (IN & F). split; [exact IN|]. lia. }
      pose proof (AL b IB EB2). lia.
    - destruct (ahead iso (t_pos t) r H); [contradiction|]. apply encs_nonempty.
  Qed.

  Lemma serve_ok is' outs : arrays_last (t_chain t) -> whole (t_chain t) (log_of (ahead iso (t_pos t) r H)) = Some (is', outs) -> bulk outs <= mx ->
    exists t', serve iso mx s r t = Some t' /\ t_chain t' = is' /\ told_all t' = told_all t ++ map inl (map pair_of outs)
      /\ t_pos t <= t_pos t' <= log_limit iso r /\ batches_between (t_pos t) (t_pos t') H = ahead iso (t_pos t) r H.
  Proof.
    intros AL W SZ. destruct reads as (q & sl & RD & SE & SB & EA & Q & ONE & RC). unfold serve, engine_send. rewrite RD, SE, SB. cbv zeta.
    destruct (ahead iso (t_pos t) r H) as [|b B] eqn:EB.
    - change (log_of []) with (@nil seen_rec) in W. rewrite whole_nil in W. inversion W; subst. cbn [encs flat_map]. change (encs []) with (@nil Z). cbv iota.
      eexists. split; [reflexivity|]. cbn [t_chain t_pos]. split; [reflexivity|]. unfold told_all. cbn [t_out]. rewrite app_nil_r. split; [cbn; rewrite app_nil_r; reflexivity|].
      split; [lia|]. apply bb_refl.
    - destruct (RC ltac:(discriminate)) as (CS & RV & NE). rewrite RV. rewrite bulk_pairs in SZ.
      assert (Forall numbered (b :: B)) as NB. { rewrite <- EB. unfold ahead, batches_between. apply Forall_forall. intros x IN. apply filter_In in IN as (IN & _). revert x IN. apply Forall_forall. exact NU. }
      destruct (engine_ok mx (t_pos t) [] (b :: B) (t_chain t) is' outs (t_pos t) q [] out0 ltac:(lia) CS NB AL W ltac:(left; auto) SZ) as (a & E & HD).
      rewrite app_nil_r in E. cbn [engine_from] in E. cbn [app] in HD. rewrite E.
      destruct (encs (b :: B)) as [|z zs]; [contradiction|].
      pose proof (told_give s a (q_delta a) None (t_pos t) q (map pair_of outs) ltac:(lia) HD) as TG. rewrite app_nil_r in TG.
      destruct (q_recs a) as [|r0 rs] eqn:ER.
      + assert (map pair_of outs = []) as EO. { destruct HD as [(_ & X)|(_ & _ & X & _)]; [exact X|]. rewrite ER in X. cbn in X. congruence. }
        eexists. split; [reflexivity|]. cbn [t_chain t_pos]. split; [reflexivity|]. unfold told_all. cbn [t_out]. rewrite EO. cbn. rewrite !app_nil_r. split; [reflexivity|].
        split; [lia|]. exact EB.
      + eexists. split; [reflexivity|]. cbn [t_chain t_pos]. split; [reflexivity|]. unfold told_all. cbn [t_out]. rewrite map_app. unfold engine_batch. rewrite ER in *. rewrite TG. split; [reflexivity|].
        destruct HD as [(-> & _)|(_ & X & _)]; [discriminate ER|]. unfold get_last_offset. cbn [b_base b_hdr with_last_delta h_last_delta]. rewrite X. split; [lia|]. exact EA.
  Qed.

  Lemma serve_fails front i f' before bad after i1 outs : t_chain t = front ++ [i] -> no_arrays front ->
    whole front (log_of (ahead iso (t_pos t) r H)) = Some (f', before ++ bad :: after) -> over i before = Some (i1, outs) -> rejects i1 bad -> bulk outs <= mx ->
    exists t' b, serve iso mx s r t = Some t' /\ told_all t' = told_all t ++ map inl (map pair_of outs) ++ [inr (blames bad)]
      /\ In b (ahead iso (t_pos t) r H) /\ b_base b <= v_off bad < batch_end b
      /\ t_pos t' = match outs with [] => log_limit iso r | _ => batch_end b end.
  Proof.
    intros TC NA W O RJ SZ. destruct reads as (q & sl & RD & SE & SB & EA & Q & ONE & RC). unfold serve, engine_send. rewrite RD, SE, SB. cbv zeta. rewrite TC.
    destruct (find_batch (n_fun i) bad _ _ _ _ _ _ _ _ W O eq_refl) as (s1 & b & s2 & f1 & m1 & j & o1 & o2 & bf & af & f2 & ES & W1 & O1 & W2 & O2 & ->).
    assert (ahead iso (t_pos t) r H <> []) as NE0 by (rewrite ES; destruct s1; discriminate).
    destruct (RC NE0) as (CS & RV & NE). rewrite RV.
    assert (Forall numbered (ahead iso (t_pos t) r H) /\ Forall honest (ahead iso (t_pos t) r H)) as (NB & HB).
    { destruct LG as (_ & _ & _ & _ & _ & _ & HO). split; unfold ahead, batches_between; apply Forall_forall; intros x IN; apply filter_In in IN as (IN & _); revert x IN; apply Forall_forall; assumption. }
    rewrite ES in CS, NB, HB. apply chain_split in CS as (x & C1 & C2). cbn [chain] in C2. destruct C2 as (EBx & PB & C2). apply Forall_app in NB as (N1 & N2). pose proof (Forall_inv N2) as Nb.
    apply Forall_app in HB as (_ & HB). pose proof (Forall_inv HB) as Hb.
    rewrite bulk_pairs, map_app in SZ. pose proof SZ as SZ'. rewrite bulk_kv_app in SZ'. pose proof (bulk_kv_pos (map pair_of o2)).
    assert (whole (front ++ [i]) (log_of s1) = Some (f1 ++ [j], o1)) as W1'. { apply (whole_join _ _ _ _ _ _ _ W1). cbn [whole]. rewrite O1. reflexivity. }
    assert (arrays_last (front ++ [i])) as AL. { clear - NA. induction NA as [|k u Hk NA IH]; cbn [app arrays_last]; [auto|]. split; [right; assumption|exact IH]. }
    pose proof (chain_le _ _ _ C1).
    destruct (engine_ok mx (t_pos t) (map (received raw_codec) (b :: s2)) s1 _ _ _ (t_pos t) x [] out0 ltac:(lia) C1 N1 AL W1' ltac:(left; auto) ltac:(cbn [app]; lia)) as (a1 & E1 & HD1).
    cbn [app] in HD1. cbn [map] in E1.
    destruct (engine_fails mx (t_pos t) (map (received raw_codec) s2) f1 j b x f2 bf bad af i1 o2 (map pair_of o1) a1 ltac:(lia) ltac:(lia) PB Nb
                (no_arrays_funs _ _ (whole_funs _ _ _ _ W1) NA) W2 O2 RJ HD1 SZ) as (i2 & a & E2 & HD & _).
    assert (map (received raw_codec) (ahead iso (t_pos t) r H) = map (received raw_codec) s1 ++ received raw_codec b :: map (received raw_codec) s2) as EM by (rewrite ES, map_app; reflexivity).
    rewrite EM, E1, E2. clear E1 E2.
    destruct (encs (ahead iso (t_pos t) r H)) as [|z zs]; [contradiction|].
    pose proof (told_give s a (q_delta a) (Some (blames bad)) (t_pos t) _ _ ltac:(lia) HD) as TG. rewrite <- map_app in TG, HD.
    assert (b_base b <= v_off bad < batch_end b) as OFF.
    { destruct (whole_off _ _ _ _ bad W2) as (v & IV & ->); [apply in_or_app; right; left; reflexivity|]. apply log_off; assumption. }
    assert (In b (ahead iso (t_pos t) r H)) as IB by (rewrite ES; apply in_or_app; right; left; reflexivity).
    destruct (q_recs a) as [|r0 rs] eqn:ER.
    - assert (o1 ++ o2 = []) as EO. { destruct HD as [(_ & X)|(_ & _ & X & Y & _)]; [destruct (o1 ++ o2); [reflexivity|discriminate X]|]. rewrite ER in X. cbn in X. congruence. }
      eexists. exists b. split; [reflexivity|]. unfold told_all. cbn [t_out t_pos]. rewrite map_app. unfold engine_batch. rewrite ER. rewrite TG. split; [reflexivity|]. rewrite EO. auto.
    - assert (o1 ++ o2 <> []) as EO. { destruct HD as [(X & _)|(_ & _ & _ & Y & _)]; [subst a; discriminate ER|]. intros X. rewrite X in Y. contradiction. }
      eexists. exists b. split; [reflexivity|]. unfold told_all. cbn [t_out t_pos]. rewrite map_app. unfold engine_batch. rewrite ER. rewrite TG. split; [reflexivity|].
      split; [exact IB|]. split; [exact OFF|]. unfold get_last_offset. cbn [b_base b_hdr with_last_delta h_last_delta].
      destruct HD as [(X & _)|(_ & X & _)]; [subst a; discriminate ER|]. rewrite X. destruct (o1 ++ o2); [contradiction|reflexivity].
  Qed.
End Response.

(** * Streams *)
Lemma streamed_inv c iso mx s is r0 H0 r H t : config_ok c -> hist c r0 H0 -> 0 <= s <= log_limit iso r0 -> arrays_last is ->
  streamed c iso mx s is r0 H0 r H t -> Forall numbered H ->
  logged c r H /\ s <= t_pos t <= log_limit iso r
  /\ exists outs, whole is (log_of (batches_between s (t_pos t) H)) = Some (t_chain t, outs) /\ told_all t = map inl (map pair_of outs).
Proof.
  intros CO HI S0 AL SD. induction SD as [|r H t t' SD IH RE SM SV|r H t a r' new SD IH OK LV EX ST]; intros NU.
  - split; [apply hist_logged; assumption|]. cbn [open_stream t_pos t_chain]. split; [lia|]. exists []. rewrite bb_refl. split; [apply whole_nil|reflexivity].
  - destruct (IH NU) as (LG & P & outs & W & T). split; [exact LG|]. destruct SM as (is1 & o1 & W1 & SZ).
    destruct (serve_ok c iso mx s r H t CO LG NU RE ltac:(lia) ltac:(lia) is1 o1 (arrays_last_funs _ _ (whole_funs _ _ _ _ W) AL) W1 SZ) as (t1 & SV1 & TC & TT & TP & EA).
    assert (t1 = t') as -> by congruence. split; [lia|]. exists (outs ++ o1). rewrite TC, TT, T, !map_app. split; [|reflexivity].
    rewrite <- (bb_join _ _ _ s (t_pos t) _ (logged_chain _ _ _ LG)) by lia. rewrite log_of_app. eapply whole_app; [exact W|]. rewrite EA. exact W1.
  - apply Forall_app in NU as (NU & _). destruct (IH NU) as (LG & P & outs & W & T).
    destruct (logged_step c r H a r' new CO LG OK ltac:(destruct a; cbn in *; auto) EX ST) as (LG' & LE & _ & HW). specialize (HW LV). split; [exact LG'|].
    assert (log_limit iso r <= log_limit iso r') by (destruct iso; cbn; assumption).
    assert (log_limit iso r <= get_leo r) by (destruct LG as (_ & _ & _ & _ & _ & X & _); destruct iso; cbn; lia).
    split; [lia|]. exists outs. split; [|exact T]. rewrite bb_app. destruct ST as (CN & _). rewrite (bb_none_high _ _ _ s (t_pos t) CN) by lia. rewrite app_nil_r. exact W.
Qed.
Lemma streamed_all c iso mx s is r0 H0 r H t : config_ok c -> hist c r0 H0 -> 0 <= s <= log_limit iso r0 -> arrays_last is ->
  streamed c iso mx s is r0 H0 r H t -> Forall numbered H -> in_reach r H t -> smooth iso mx r H t ->
  exists t' outs, serve iso mx s r t = Some t' /\ whole is (log_of (ahead iso s r H)) = Some (t_chain t', outs) /\ told_all t' = map inl (map pair_of outs).
Proof.
  intros CO HI S0 AL SD NU RE SM. destruct (streamed_inv _ _ _ _ _ _ _ _ _ _ CO HI S0 AL SD NU) as (LG & P & outs & W & T). destruct SM as (is1 & o1 & W1 & SZ).
  destruct (serve_ok c iso mx s r H t CO LG NU RE ltac:(lia) ltac:(lia) is1 o1 (arrays_last_funs _ _ (whole_funs _ _ _ _ W) AL) W1 SZ) as (t' & SV & TC & TT & TP & EA).
  exists t', (outs ++ o1). split; [exact SV|]. rewrite TC, TT, T, !map_app. split; [|reflexivity].
  unfold ahead in *. rewrite <- (bb_join _ _ _ s (t_pos t) _ (logged_chain _ _ _ LG)) by lia. rewrite log_of_app. eapply whole_app; [exact W|exact W1].
Qed.

(** A failing record. *)
Lemma over_rejects i0 l : forall before bad after i1 outs, l = before ++ bad :: after -> over i0 before = Some (i1, outs) -> rejects i1 bad -> over i0 l = None.
Proof.
  intros before bad after i1 outs -> O RJ. destruct (over i0 (before ++ bad :: after)) as [[j z]|] eqn:E; [|reflexivity]. exfalso.
  destruct (over_cut _ _ _ _ _ E) as (k & x & y & O' & O2 & _). rewrite O in O'. inversion O'; subst. cbn [over] in O2.
  assert (one k bad = None) as N; [|rewrite N in O2; discriminate]. unfold one, rejects, answer in *.
  destruct (n_fun k); try (rewrite RJ; reflexivity). destruct (f (n_mem k) (n_acc k) bad) as [m u]. cbn [snd] in RJ. subst u. reflexivity.
Qed.
Lemma whole_last f i l : forall is' o, whole (f ++ [i]) l = Some (is', o) -> exists f' m i', whole f l = Some (f', m) /\ over i m = Some (i', o) /\ is' = f' ++ [i'].
Proof.
  revert l. induction f as [|k f IH]; cbn [app whole]; intros l is' o E.
  - destruct (over i l) as [[i' x]|] eqn:O; [|discriminate]. inversion E; subst. exists [], l, i'. auto.
  - destruct (over k l) as [[k' x]|] eqn:O; [|discriminate]. destruct (whole (f ++ [i]) x) as [[t' y]|] eqn:W; [|discriminate]. inversion E; subst.
    destruct (IH _ _ _ W) as (f' & m & i' & W1 & O1 & ->). exists (k' :: f'), m, i'. rewrite W1. auto.
Qed.
Lemma bulk_app a b : bulk (a ++ b) = bulk a + bulk b.
Proof. rewrite !bulk_pairs, map_app. apply bulk_kv_app. Qed.
Lemma bulk_pos l : 0 <= bulk l.
Proof. rewrite bulk_pairs. apply bulk_kv_pos. Qed.
Lemma arrays_last_app f i : no_arrays f -> arrays_last (f ++ [i]).
Proof. induction 1 as [|k f A _ IH]; cbn [app arrays_last]; [auto|]. split; [right; exact A|exact IH]. Qed.
Lemma streamed_fails c iso mx s front i r0 H0 r H t f' before bad after i1 outs : config_ok c -> hist c r0 H0 -> 0 <= s <= log_limit iso r0 -> no_arrays front ->
  streamed c iso mx s (front ++ [i]) r0 H0 r H t -> Forall numbered H -> in_reach r H t ->
  whole front (log_of (ahead iso s r H)) = Some (f', before ++ bad :: after) -> over i before = Some (i1, outs) -> rejects i1 bad -> bulk outs <= mx ->
  exists t' b, serve iso mx s r t = Some t' /\ told_all t' = map inl (map pair_of outs) ++ [inr (blames bad)]
    /\ In b (ahead iso s r H) /\ b_base b <= v_off bad < batch_end b
    /\ (told_all t <> map inl (map pair_of outs) -> t_pos t' = batch_end b)
    /\ (told_all t = map inl (map pair_of outs) -> t_pos t' = log_limit iso r).
Proof.
  intros CO HI S0 NA SD NU RE W O RJ SZ. destruct (streamed_inv _ _ _ _ _ _ _ _ _ _ CO HI S0 (arrays_last_app _ i NA) SD NU) as (LG & P & o1 & W1 & T).
  assert (ahead iso s r H = batches_between s (t_pos t) H ++ ahead iso (t_pos t) r H) as EA.
  { unfold ahead. symmetry. apply (bb_join _ _ _ s (t_pos t) (log_limit iso r) (logged_chain _ _ _ LG)). lia. }
  rewrite EA, log_of_app in W. destruct (whole_cut _ _ _ _ _ W) as (f1 & x & y & WA & WB & E). destruct (whole_last _ _ _ _ _ W1) as (f2 & m & i' & WA' & OA & TC).
  rewrite WA in WA'. inversion WA'; subst f2 m. clear WA'.
  destruct (app_mid _ _ _ _ _ (eq_sym E)) as [(b' & -> & ->)|(a' & ->)]; [|rewrite (over_rejects _ _ _ _ _ _ _ eq_refl O RJ) in OA; discriminate OA].
  destruct (over_cut _ _ _ _ _ O) as (j & x1 & o2 & OA' & OB & ->). rewrite OA in OA'. inversion OA'; subst j x1. clear OA'.
  rewrite bulk_app in SZ. pose proof (bulk_pos o1).
  destruct (serve_fails c iso mx s r H t CO LG NU RE ltac:(lia) ltac:(lia) f1 i' f' b' bad after i1 o2 TC (no_arrays_funs _ _ (whole_funs _ _ _ _ WA) NA) WB OB RJ ltac:(lia))
    as (t' & b & SV & TT & IB & OF & TP).
  exists t', b. split; [exact SV|]. rewrite TT, T, !map_app, <- app_assoc. split; [reflexivity|]. split; [rewrite EA; apply in_or_app; right; exact IB|]. split; [exact OF|].
  rewrite TP. destruct o2 as [|v o2].
  - split; [|reflexivity]. intros X. cbn [map] in X. rewrite app_nil_r in X. contradiction.
  - split; [reflexivity|]. intros X. exfalso. apply (f_equal (@length _)) in X. rewrite app_length in X. cbn [map length] in X. lia.
Qed.

(** What leaves a SmartModule has no timestamp. *)
Lemma no_time iso mx s r t t' : serve iso mx s r t = Some t' -> (forall c, In (GRec c) (t_out t) -> consumer_time c = -1) -> forall c, In (GRec c) (t_out t') -> consumer_time c = -1.
Proof.
  unfold serve. destruct (engine_send iso mx r (t_chain t) (t_pos t)) as [[[is pos] x]|] eqn:E; [|discriminate]. intros X. inversion X; subst. cbn [t_out]. intros IH c IN.
  apply in_app_or in IN as [IN|IN]; [apply IH; assumption|]. destruct x as [[b e]|]; [|contradiction].
  assert (h_first_ts (b_hdr b) = -1) as TS.
  { unfold engine_send in E. destruct (read_partition_slice r (t_pos t) u32_max iso) as [sl|]; [|discriminate]. cbv zeta in E.
    destruct (match sl_bytes sl with Some b0 => b0 | None => [] end); [inversion E|]. destruct (engine_from _ _ _ _) as [[[i1 a] e1]|]; [|discriminate].
    destruct (q_recs a), e1; inversion E; subst; reflexivity. }
  unfold give in IN. cbn [fst snd] in IN. apply in_app_or in IN as [IN|IN]; [|destruct e; [destruct IN as [IN|[]]; discriminate IN|contradiction]].
  apply in_map_iff in IN as (c' & EQ & IN). inversion EQ; subst c'. apply filter_In in IN as (IN & _). unfold into_consumer_records in IN. rewrite TS in IN.
  assert (forall l base i, In c (consumer_records_from base 0 (-1) i l) -> cr_ts_base c = -1) as G.
  { induction l as [|r0 l IHl]; intros base i I0; [contradiction|]. destruct I0 as [<-|I0]; [reflexivity|eapply IHl; exact I0]. }
  unfold consumer_time. rewrite (G _ _ _ IN). reflexivity.
Qed.

(** * Writes *)
Lemma one_each_arrays is : one_each is -> no_arrays is.
Proof. intros F. induction F as [|i t E F IH]; constructor; [|exact IH]. unfold is_array. destruct (n_fun i); [contradiction|reflexivity|contradiction|contradiction|reflexivity]. Qed.
Lemma one_each_funs is : forall is', map n_fun is' = map n_fun is -> one_each is -> one_each is'.
Proof.
  induction is as [|i t IH]; intros [|i' t'] E; try discriminate E; [auto|]. cbn [map] in E. inversion E as [[E1 E2]]. intros F. inversion F; subst.
  constructor; [rewrite E1; assumption|apply IH; assumption].
Qed.
Lemma over_len i l : forall i0 i' vs, n_fun i0 = n_fun i -> match n_fun i with UMap _ | UAggregate _ => True | _ => False end -> over i0 l = Some (i', vs) -> zlen vs = zlen l.
Proof.
  induction l as [|v l IH]; cbn [over]; intros i0 i' vs F T E; [inversion E; reflexivity|].
  destruct (one i0 v) as [[j a]|] eqn:E1; [|discriminate]. destruct (over j l) as [[j2 b]|] eqn:E2; [|discriminate]. inversion E; subst.
  rewrite zlen_app, zlen_cons, (IH j i' b); [|rewrite (one_fun _ _ _ _ E1); exact F|exact T|exact E2].
  assert (zlen a = 1) as ->; [|lia]. clear - E1 F T. unfold one, answer in E1. rewrite F in E1. destruct (n_fun i) as [f|f|f|f|f]; try contradiction.
  - destruct (f (n_mem i0) v) as [m [p| |]]; cbn in E1; inversion E1; reflexivity.
  - destruct (f (n_mem i0) (n_acc i0) v) as [m [p| |]]; cbn in E1; inversion E1; reflexivity.
Qed.
Lemma whole_len is : forall l is' vs, one_each is -> whole is l = Some (is', vs) -> zlen vs = zlen l.
Proof.
  induction is as [|i t IH]; cbn [whole]; intros l is' vs F E; [inversion E; reflexivity|].
  destruct (over i l) as [[j a]|] eqn:E1; [|discriminate]. destruct (whole t a) as [[t1 b]|] eqn:E2; [|discriminate]. inversion E; subst.
  rewrite (IH _ _ _ (Forall_inv_tail F) E2). exact (over_len i l i j a eq_refl (Forall_inv F) E1).
Qed.
Lemma log_len b : honest b -> zlen (log_of [b]) = records_len b.
Proof. intros HO. unfold log_of. cbn [flat_map]. rewrite app_nil_r. unfold zlen. rewrite map_length. apply (stamped_len b HO). Qed.

Lemma produce_ok l : forall is is' vs ws a, Forall sent l -> one_each is -> whole is (log_of l) = Some (is', vs) ->
  ((a = out0 /\ ws = []) \/ (q_base a = 0 /\ q_delta a + 1 = zlen ws /\ map rkv (q_recs a) = ws /\ q_bytes a <= bulk_kv ws)) ->
  bulk_kv (ws ++ map pair_of vs) <= 2 ^ 64 - 1 ->
  exists a', engine_from is (2 ^ 64 - 1) l a = Some (is', a', None)
    /\ ((a' = out0 /\ ws ++ map pair_of vs = []) \/ (q_base a' = 0 /\ q_delta a' + 1 = zlen (ws ++ map pair_of vs) /\ map rkv (q_recs a') = ws ++ map pair_of vs /\ q_bytes a' <= bulk_kv (ws ++ map pair_of vs))).
Proof.
  induction l as [|b l IH]; intros is is' vs ws a SE OE W ST SZ.
  { change (log_of []) with (@nil seen_rec) in W. rewrite whole_nil in W. inversion W; subst. cbn [map engine_from]. rewrite app_nil_r. exists a. auto. }
  pose proof (Forall_inv SE) as (B0 & P & HB & (m & T & PN)). apply Forall_inv_tail in SE.
  rewrite log_of_cons in W. destruct (whole_cut _ _ _ _ _ W) as (is1 & v1 & v2 & W1 & W2 & ->).
  assert (map (show (b_base b) (h_first_ts (b_hdr b))) (b_recs m) = log_of [b]) as EI.
  { pose proof (numbered_stamps b m T PN) as E. unfold log_of. cbn [flat_map]. rewrite app_nil_r.
    apply (f_equal (map (fun p => mkSeen (e_off p) (e_ts p) (r_key (e_rec p)) (r_val (e_rec p))))) in E. rewrite !map_map in E. exact E. }
  pose proof (whole_len _ _ _ _ OE W1) as LN. rewrite (log_len b HB) in LN.
  rewrite <- EI in W1. destruct (run_chain_ok _ _ _ _ _ _ (no_arrays_last _ (one_each_arrays _ OE)) W1) as (out & RC & K & _).
  rewrite map_app, app_assoc in *. pose proof SZ as SZ1. rewrite bulk_kv_app in SZ1. pose proof (bulk_kv_pos (map pair_of v2)). rewrite <- K in *.
  assert (zlen (map rkv out) = records_len b) as LO. { rewrite K. unfold zlen in *. rewrite map_length. exact LN. }
  cbn [engine_from]. rewrite T, RC. cbv zeta. rewrite (chain_delta b P), B0. destruct out as [|r out]; [cbn in LO; unfold zlen in LO; cbn in LO; lia|].
  assert ((if q_base a =? -1 then 0 else q_base a) = 0) as BZ. { destruct ST as [(-> & _)|(-> & _)]; reflexivity. }
  rewrite BZ. replace (0 - 0) with 0 by lia. rewrite (map_ext _ _ add_none), map_id.
  pose proof (recs_size_bound (r :: out) ltac:(discriminate)) as SB. rewrite bulk_kv_app in SZ1.
  assert (q_bytes a <= bulk_kv ws /\ q_delta a + 1 = zlen ws /\ map rkv (q_recs a) = ws) as (QB & QD & QR).
  { destruct ST as [(-> & ->)|(_ & X & Y & Z)]; [cbn; split; [lia|split; reflexivity]|auto]. }
  replace (2 ^ 64 - 1 <? q_bytes a + c_size memory_codec (r :: out)) with false by lia.
  destruct (IH is1 is' v2 (ws ++ map rkv (r :: out)) (add_out a 0 (records_len b) (r :: out) (c_size memory_codec (r :: out))) SE (one_each_funs _ _ (whole_funs _ _ _ _ W1) OE) W2) as (a' & E' & ST').
  - right. unfold add_out. cbn [q_base q_delta q_recs q_bytes]. split; [reflexivity|]. rewrite zlen_app, LO. split; [lia|]. rewrite map_app, QR. split; [reflexivity|]. rewrite bulk_kv_app. lia.
  - rewrite !bulk_kv_app. rewrite !bulk_kv_app in SZ. lia.
  - exists a'. auto.
Qed.
Lemma transform_ok is is' vs l : Forall sent l -> l <> [] -> one_each is -> whole is (log_of l) = Some (is', vs) -> bulk vs <= 2 ^ 64 - 1 ->
  exists m, transform is l = Stored is' [to_raw m] /\ map rkv (b_recs m) = map pair_of vs /\ records_len m = zlen (b_recs m) /\ zlen (b_recs m) = zlen (log_of l).
Proof.
  intros SE NE OE W SZ. rewrite bulk_pairs in SZ. destruct (produce_ok l is is' vs [] out0 SE OE W ltac:(left; auto) SZ) as (a & E & ST). cbn [app] in ST.
  pose proof (whole_len _ _ _ _ OE W) as LN.
  assert (0 < zlen (log_of l)) as LP.
  { destruct l as [|b l]; [contradiction|]. pose proof (Forall_inv SE) as (_ & P & HB & _). rewrite log_of_cons, zlen_app, (log_len b HB). pose proof (zlen_nonneg (log_of l)). lia. }
  assert (zlen (map pair_of vs) = zlen vs) as ML by (unfold zlen; rewrite map_length; reflexivity).
  destruct ST as [(_ & X)|(B0 & D & K & _)]; [rewrite X in ML; unfold zlen in *; cbn in ML; lia|].
  assert (zlen (q_recs a) = zlen vs) as RL. { rewrite <- ML, <- K. unfold zlen. rewrite map_length. reflexivity. }
  exists (engine_batch a). unfold transform. rewrite E. split.
  - destruct (q_recs a) as [|r0 rs] eqn:ER; [unfold zlen in RL at 1; cbn in RL; lia|]. reflexivity.
  - unfold engine_batch. cbn [b_recs]. split; [exact K|]. split; [|lia]. unfold records_len. cbn [b_hdr with_last_delta h_last_delta]. replace (q_delta a <? 0) with false by lia. lia.
Qed.
Lemma raw_honest m : records_ok (b_recs m) -> records_len m = zlen (b_recs m) -> honest (to_raw m).
Proof.
  intros OK L. destruct (memory_records_cut _ (zlen (c_enc memory_codec (b_recs m))) OK) as (l & E & _ & F & _). rewrite ztake_all in E by lia. specialize (F ltac:(lia)). subst l.
  unfold honest, to_memory, to_raw. cbn [b_recs]. rewrite E. cbn [bind]. eexists. split; [reflexivity|]. cbn [b_recs]. rewrite <- L. reflexivity.
Qed.
