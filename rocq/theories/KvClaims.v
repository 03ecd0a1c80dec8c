(** The claims about the table of consumer offsets. *)
From Verif Require Import Base ListFacts WireModel WireSpec RecordModel RecordSpec StorageSpec StorageProofs ReplicaProofs StorageClaims.
From Verif Require Import StreamModel StreamSpec StreamProofs KvModel KvSpec KvProofs.

Lemma reload_exact c s T : config_ok c -> kruns c s T ->
  (kept (kv_store s) T -> exists t, replay (kv_store s) = Ok t /\ same t (as_of (get_hw (kv_store s)) T))
  /\ (~ kept (kv_store s) T -> replay (kv_store s) = Err Panic).
Proof.
  intros CO R. destruct (kruns_J _ _ _ CO R) as (H & A & LG & AL & S & TG & HW).
  destruct (reload_is _ _ _ _ _ CO LG AL HW) as (A1 & S1 & _ & _ & [(K & E)|(K & E)]).
  - split; [intros _; exists (sem A1); auto|intros N; contradiction].
  - split; [intros N; contradiction|auto].
Qed.
Lemma reload_current c s T : config_ok c -> kruns c s T -> get_hw (kv_store s) = get_leo (kv_store s) ->
  match replay (kv_store s) with Ok t => same t (kv_cache s) | Err _ => ~ kept (kv_store s) T end.
Proof.
  intros CO R EQ. destruct (kruns_J _ _ _ CO R) as (H & A & LG & AL & S & TG & HW).
  destruct (reload_is _ _ _ _ _ CO LG AL HW) as (A1 & S1 & _ & S2 & [(K & E)|(K & E)]); rewrite E; [|assumption].
  intros k. rewrite (S2 EQ). apply S.
Qed.

(** * The table of an SPU that is the only replica *)
Lemma append_hw c now io r l r' ok H : config_ok c -> logged c r H -> l <> [] -> Forall act_good l -> fits r (map enc_act l) ->
  append c now true io r (map enc_act l) = (r', ok) -> get_hw r = get_leo r -> get_hw r' = get_leo r'.
Proof.
  intros CO LG NE G F AP EQ. destruct (append_logged _ _ _ _ _ _ _ _ _ CO LG NE G F AP) as (_ & X). destruct ok.
  - destruct X as (b & _ & _ & _ & HW & _). exact HW.
  - destruct X as (_ & HW & LEO). lia.
Qed.
Definition settled (c : config) (s : offsets) : Prop :=
  exists T, kruns c (of_kv s) T /\ get_hw (kv_store (of_kv s)) = get_leo (kv_store (of_kv s)).
Lemma flush_settled th c now io s order s' ok : config_ok c -> settled c s -> Permutation order (kv_cache (of_kv s)) ->
  fits (kv_store (of_kv s)) (everything order) -> maybe_flush th c now true io s order = (s', ok) -> settled c s'.
Proof.
  intros CO (T & R & EQ) PM F M. unfold maybe_flush in M. destruct (th <? of_changes s); [|inversion M; subst; exists T; auto].
  destruct (kv_flush c now true io (of_kv s) order) as [s1 o1] eqn:K. pose proof (k_flush c _ T now true io order s1 o1 R PM F K) as R'.
  assert (of_kv s' = s1) as ES by (destruct o1; inversion M; reflexivity). unfold settled. rewrite ES. exists (if o1 then (get_leo (kv_store (of_kv s)), kv_cache s1, true) :: T else T). split; [assumption|].
  destruct (kruns_J _ _ _ CO R) as (H & A & LG & AL & S & (ND & TG) & HW). unfold kv_flush in K. fold (everything order) in K. rewrite <- puts_enc in K, F.
  destruct (append c now true io (kv_store (of_kv s)) (map enc_act (AReset :: puts order))) as [r1 o2] eqn:AP. inversion K; subst. cbn [kv_store].
  refine (append_hw _ _ _ _ _ _ _ _ CO LG _ _ F AP EQ); [discriminate|]. apply puts_good. rewrite Forall_forall in *. intros x I. apply TG. eapply Permutation_in; eassumption.
Qed.
Lemma oruns_settled th c s : config_ok c -> oruns th c s -> settled c s.
Proof.
  intros CO. induction 1 as [now|s now io1 io2 order k v s' ok R IH KG VG PM F1 F2 P|s now io2 order k s' ok R IH KG PM F1 F2 D P|s a r R IH OK AC EX|s now r s' R IH EX OP].
  - exists []. split; [constructor|reflexivity].
  - unfold of_put in P. destruct (kv_put c now true io1 (of_kv s) k v) as [s1 o1] eqn:KP. cbn [fst] in F2.
    destruct (maybe_flush th c now true io2 (mkOffsets s1 (of_changes s + 1)) (order (kv_cache s1))) as [s2 o2] eqn:M. inversion P; subst.
    refine (flush_settled _ _ _ _ _ _ _ _ CO _ _ _ M); [|apply PM|assumption]. destruct IH as (T & R' & EQ).
    exists (if o1 then (get_leo (kv_store (of_kv s)), kv_cache s1, false) :: T else T). cbn [of_kv]. split; [exact (k_put c _ _ _ _ _ _ _ _ _ R' KG VG F1 KP)|].
    destruct (kruns_J _ _ _ CO R') as (H & A & LG & _). unfold kv_put in KP. destruct (append c now true io1 (kv_store (of_kv s)) [updated k v]) as [r1 b1] eqn:AP.
    assert (kv_store s1 = r1) as -> by (destruct b1; inversion KP; reflexivity).
    refine (append_hw c now io1 _ [APut k v] _ _ _ CO LG _ _ F1 AP EQ); [discriminate|]. constructor; [split; assumption|constructor].
  - unfold of_delete in P. destruct (kv_delete c now true true (of_kv s) k) as [s1 o1] eqn:KP. cbn [fst snd] in F2, D. subst o1.
    destruct (maybe_flush th c now true io2 (mkOffsets s1 (of_changes s + 1)) (order (kv_cache s1))) as [s2 o2] eqn:M. inversion P; subst.
    refine (flush_settled _ _ _ _ _ _ _ _ CO _ _ _ M); [|apply PM|assumption]. destruct IH as (T & R' & EQ).
    exists ((get_leo (kv_store (of_kv s)), kv_cache s1, false) :: T). cbn [of_kv]. split; [exact (k_delete c _ _ _ _ _ _ _ R' KG F1 KP)|].
    destruct (kruns_J _ _ _ CO R') as (H & A & LG & _). unfold kv_delete in KP. destruct (append c now true true (kv_store (of_kv s)) [deleted k]) as [r1 b1] eqn:AP.
    inversion KP; subst. cbn [kv_store]. refine (append_hw c now true _ [ADel k] _ _ _ CO LG _ _ F1 AP EQ); [discriminate|]. constructor; [assumption|constructor].
  - destruct IH as (T & R' & EQ). exists T. cbn [of_kv kv_store]. split; [apply (k_store c _ _ a r R' OK); [destruct AC as [->|(now & ->)]; exact I|assumption]|].
    destruct (kruns_J _ _ _ CO R') as (H & A & (old & L & _ & IV & _) & _).
    assert (get_hw r = get_hw (kv_store (of_kv s))) as -> by
      (destruct AC as [->|(now & ->)]; cbn [exec] in EX; inversion EX; [unfold enforce_size; cbv zeta; destruct (0 <? _); reflexivity|unfold enforce_ttl; destruct (filter _ _); reflexivity]).
    rewrite EQ.
    destruct (ReplicaProofs.step _ _ _ _ _ CO IV OK EX) as (L' & I' & dr & kp & nw & _ & _ & _ & C2 & AD & _).
    destruct AC as [->|(now & ->)]; cbn [added_by] in AD; subst nw; exact C2.
  - destruct IH as (T & R' & EQ). destruct (kruns_J _ _ _ CO R') as (H & A & (old & L & _ & (s0 & ls & act & _ & IV) & _) & _).
    destruct (restart_at c now s0 _ ls act (Value (get_hw (kv_store (of_kv s)))) CO IV) as (r1 & _ & LEO & _ & _ & HW & LD).
    pose proof EX as EX0. cbn [exec] in EX. rewrite LD in EX. destruct (_ <? _); [|discriminate]. inversion EX; subst r1. cbn [ckpt_value] in HW.
    assert (get_hw r = get_leo r) as HWr by (unfold get_hw in *; lia).
    unfold of_open in OP. destruct (replay r) as [t|] eqn:RP; [|discriminate]. cbn [bind] in OP. inversion OP; subst s'. exists T. cbn [of_kv kv_store].
    split; [|assumption]. exact (k_restart c _ T now _ r t R' EX0 HWr RP).
Qed.

(** Reloading what a table has written, at any time. *)
Lemma reload_single th c s : config_ok c -> oruns th c s ->
  match of_open (kv_store (of_kv s)) with
  | Ok s' => same (kv_cache (of_kv s')) (kv_cache (of_kv s))
  | Err _ => 0 < get_log_start (kv_store (of_kv s))
  end.
Proof.
  intros CO R. destruct (oruns_settled _ _ _ CO R) as (T & K & EQ). pose proof (reload_current _ _ _ CO K EQ) as X.
  unfold of_open. destruct (replay (kv_store (of_kv s))) as [t|e]; cbn [bind of_kv kv_cache]; [assumption|].
  destruct (kruns_J _ _ _ CO K) as (H & A & (old & L & _ & _ & C0 & _) & _). pose proof (chain_le _ _ _ C0). unfold kept in X.
  destruct (Z.eq_dec (get_log_start (kv_store (of_kv s))) 0); [tauto|lia].
Qed.
Lemma restart_single th c s now r : config_ok c -> oruns th c s ->
  exec c (kv_store (of_kv s)) (Restart now (Value (get_hw (kv_store (of_kv s))))) = Done r ->
  match of_open r with
  | Ok s' => same (kv_cache (of_kv s')) (kv_cache (of_kv s))
  | Err _ => 0 < get_log_start (kv_store (of_kv s))
  end.
Proof.
  intros CO R EX. destruct (oruns_settled _ _ _ CO R) as (T & K & EQ).
  destruct (kruns_J _ _ _ CO K) as (H & A & LG & AL & S & TG & HW).
  assert (stored_by (Restart now (Value (get_hw (kv_store (of_kv s))))) (kv_store (of_kv s)) r []) as ST.
  { destruct LG as (old & L & -> & I & C0 & HW1 & HO). destruct (ReplicaProofs.step _ _ _ (Restart now (Value (get_hw (kv_store (of_kv s))))) _ CO I Logic.I EX) as (L' & I' & dr & kp & nw & EL & EL' & C1 & C2 & AD & _).
    cbn [added_by] in AD. subst nw. split; [assumption|reflexivity]. }
  destruct (logged_step _ _ _ (Restart now (Value (get_hw (kv_store (of_kv s))))) _ _ CO LG Logic.I Logic.I EX ST) as (LG' & _ & _ & _). rewrite app_nil_r in LG'.
  destruct LG as (old & L & EH & (s0 & ls & act & -> & IV) & C0 & HWL & HO).
  destruct (restart_at c now s0 _ ls act (Value (get_hw (kv_store (of_kv s)))) CO IV) as (r1 & IV1 & LEO & _ & _ & HWr & LD).
  cbn [exec] in EX. rewrite LD in EX. destruct (_ <? _); [|discriminate]. inversion EX; subst r1. cbn [ckpt_value] in HWr.
  assert (get_hw r = get_leo r) as E2 by (unfold get_hw in *; lia). assert (0 <= get_hw r) as H0 by (unfold get_hw in *; lia).
  assert (get_log_start r = get_log_start (kv_store (of_kv s))) as LS by (rewrite (log_start_ok _ _ _ _ _ IV), (log_start_ok _ _ _ _ _ IV1); reflexivity).
  destruct (reload_is _ _ _ _ _ CO LG' AL H0) as (A1 & _ & _ & S2 & [(KP & E)|(KP & E)]); unfold of_open; rewrite E; cbn [bind of_kv kv_cache].
  - intros k. rewrite (S2 E2). apply S.
  - pose proof (chain_le _ _ _ C0). unfold kept in KP. destruct (Z.eq_dec (get_log_start r) 0); [tauto|lia].
Qed.

(** A change that is reported as made can be read back. *)
Lemma flush_cache th c now only io s order : kv_cache (of_kv (fst (maybe_flush th c now only io s order))) = kv_cache (of_kv s).
Proof.
  unfold maybe_flush. destruct (th <? of_changes s); [|reflexivity]. unfold kv_flush. destruct (append _ _ _ _ _ _) as [r o]. destruct o; reflexivity.
Qed.
Lemma put_reads th c now only io1 io2 order s k v s' x : of_put th c now only io1 io2 order s k v = (s', true) ->
  lookup x (kv_cache (of_kv s')) = if key_eqb x k then Some v else lookup x (kv_cache (of_kv s)).
Proof.
  unfold of_put. destruct (kv_put c now only io1 (of_kv s) k v) as [s1 o1] eqn:P.
  pose proof (flush_cache th c now only io2 (mkOffsets s1 (of_changes s + 1)) (order (kv_cache s1))) as F.
  destruct (maybe_flush _ _ _ _ _ _ _) as [s2 o2]. cbn [fst of_kv] in F. intros E. inversion E; subst. apply andb_true_iff in H1 as (-> & ->). rewrite F.
  unfold kv_put in P. destruct (append _ _ _ _ _ _) as [r [|]]; inversion P; subst. cbn [kv_cache]. apply lookup_insert.
Qed.
Lemma delete_reads th c now only io1 io2 order s k s' x : of_delete th c now only io1 io2 order s k = (s', true) ->
  lookup x (kv_cache (of_kv s')) = if key_eqb x k then None else lookup x (kv_cache (of_kv s)).
Proof.
  unfold of_delete. destruct (kv_delete c now only io1 (of_kv s) k) as [s1 o1] eqn:P.
  pose proof (flush_cache th c now only io2 (mkOffsets s1 (of_changes s + 1)) (order (kv_cache s1))) as F.
  destruct (maybe_flush _ _ _ _ _ _ _) as [s2 o2]. cbn [fst of_kv] in F. intros E. inversion E; subst. rewrite F.
  unfold kv_delete in P. destruct (append _ _ _ _ _ _) as [r o]. inversion P; subst. cbn [kv_cache]. apply lookup_erase.
Qed.

(** * Running concrete histories *)
Definition str_okb (s : bytes) : bool := utf8_valid s && (zlen s <? 2 ^ 15).
Definition in_ub (n x : Z) : bool := (0 <=? x) && (x <? 2 ^ n).
Definition in_sb (n x : Z) : bool := (- 2 ^ (n - 1) <=? x) && (x <? 2 ^ (n - 1)).
Definition key_goodb (k : key) : bool := str_okb (fst (fst k)) && in_ub 32 (snd (fst k)) && str_okb (snd k).
Definition value_goodb (v : value) : bool := in_sb 64 (fst v) && in_ub 64 (snd v).
Definition fitsb (r : replica) (l : list kentry) : bool :=
  let b := to_raw (kv_batch l) in
  (zlen (renc b) <? 2 ^ 31 - 4)
  && ((get_leo r + total [b] - m_base (r_active r) <? 2 ^ 31) && (get_leo r + total [b] <? 2 ^ 63)).
Lemma str_okb_ok s : str_okb s = true -> str_ok s.
Proof. intros E. apply andb_true_iff in E as (A & B). split; [assumption|lia]. Qed.
Lemma key_goodb_ok k : key_goodb k = true -> key_good k.
Proof.
  intros E. apply andb_true_iff in E as (E & C). apply andb_true_iff in E as (A & B). split; [apply str_okb_ok; assumption|]. split; [|apply str_okb_ok; assumption].
  apply andb_true_iff in B. unfold in_u. lia.
Qed.
Lemma value_goodb_ok v : value_goodb v = true -> value_good v.
Proof. intros E. apply andb_true_iff in E as (A & B). apply andb_true_iff in A, B. split; [unfold in_s|unfold in_u]; lia. Qed.
Lemma fitsb_ok r l : fitsb r l = true -> fits r l.
Proof. unfold fitsb. cbv zeta. intros E. apply andb_true_iff in E as (A & E). apply andb_true_iff in E as (B & C). split; [lia|]. split; lia. Qed.

(** puts to the table of a single replica; [None]: a premise is not met *)
Fixpoint oputs (th : Z) (c : config) (l : list (key * value)) (s : offsets) : option offsets :=
  match l with
  | [] => Some s
  | (k, v) :: l' =>
      let s1 := fst (kv_put c 0 true true (of_kv s) k v) in
      if key_goodb k && value_goodb v && fitsb (kv_store (of_kv s)) [updated k v] && fitsb (kv_store s1) (everything (kv_cache s1))
      then oputs th c l' (fst (of_put th c 0 true true true (fun t => t) s k v))
      else None
  end.
Lemma oputs_runs th c l : forall s s', oruns th c s -> oputs th c l s = Some s' -> oruns th c s'.
Proof.
  induction l as [|[k v] l IH]; intros s s' R; cbn [oputs]; [intros [= <-]; assumption|]. cbv zeta.
  destruct (key_goodb k && value_goodb v && fitsb (kv_store (of_kv s)) [updated k v] && fitsb _ _) eqn:E; [|discriminate].
  apply andb_true_iff in E as (E & F2). apply andb_true_iff in E as (E & F1). apply andb_true_iff in E as (KG & VG).
  apply IH. destruct (of_put th c 0 true true true (fun t => t) s k v) as [s1 ok] eqn:P. cbn [fst].
  refine (o_put th c s 0 true true (fun t => t) k v s1 ok R (key_goodb_ok _ KG) (value_goodb_ok _ VG) _ (fitsb_ok _ _ F1) (fitsb_ok _ _ F2) P).
  intros t. apply Permutation_refl.
Qed.

(** * Findings *)
Definition kc : config := mkConfig 1000 1000 100 100 100000 3600.
Lemma kc_ok : config_ok kc.
Proof. unfold config_ok, kc. cbn. lia. Qed.
Definition ka : key := (([97], 0), [120]).
Definition kb : key := (([97], 0), [121]).
Definition s0 (c : config) : offsets := mkOffsets (mkKv [] (fresh c 0)) 0.
Definition s1 : offsets := match oputs 100 kc [(ka, (5, 1)); (kb, (7, 1)); (ka, (9, 2))] (s0 kc) with Some s => s | None => s0 kc end.
Lemma s1_runs : oruns 100 kc s1.
Proof. apply (oputs_runs 100 kc [(ka, (5, 1)); (kb, (7, 1)); (ka, (9, 2))] (s0 kc)); [constructor|]. vm_compute. reflexivity. Qed.

Lemma failed_delete_refuted : exists th c s k v s' t,
  config_ok c /\ oruns th c s /\ lookup k (kv_cache (of_kv s)) = Some v
  /\ of_delete th c 0 true false true (fun t => t) s k = (s', false)
  /\ lookup k (kv_cache (of_kv s')) = None
  /\ replay (kv_store (of_kv s')) = Ok t /\ lookup k t = Some v.
Proof.
  exists 100, kc, s1, ka, (9, 2), (fst (of_delete 100 kc 0 true false true (fun t => t) s1 ka)).
  exists [(ka, (9, 2)); (kb, (7, 1))]. split; [exact kc_ok|]. split; [exact s1_runs|].
  split; [vm_compute; reflexivity|]. split; [vm_compute; reflexivity|]. split; [vm_compute; reflexivity|]. split; vm_compute; reflexivity.
Qed.

Definition late : batch bytes := to_raw (kv_batch [updated ka (11, 3)]).
Definition r2 : replica :=
  match exec kc (kv_store (of_kv s1)) (Crash 0 late (zlen (renc late)) (Value (get_hw (kv_store (of_kv s1))))) with Done r => r | Fail _ => kv_store (of_kv s1) end.
Definition o2 : offsets := match of_open r2 with Ok s => s | Err _ => s1 end.
Definition o3 : offsets := fst (of_put 100 kc 0 true true true (fun t => t) o2 kb (8, 4)).
Lemma crash_refuted : exists th c s k v v' now n r s1 k2 v2 s2 t,
  config_ok c /\ oruns th c s /\ lookup k (kv_cache (of_kv s)) = Some v /\ v <> v'
  /\ exec c (kv_store (of_kv s)) (Crash now (to_raw (kv_batch [updated k v'])) n (Value (get_hw (kv_store (of_kv s))))) = Done r
  /\ of_open r = Ok s1 /\ lookup k (kv_cache (of_kv s1)) = Some v
  /\ k2 <> k /\ of_put th c 0 true true true (fun t => t) s1 k2 v2 = (s2, true) /\ lookup k (kv_cache (of_kv s2)) = Some v
  /\ replay (kv_store (of_kv s2)) = Ok t /\ lookup k t = Some v'.
Proof.
  exists 100, kc, s1, ka, (9, 2), (11, 3), 0, (zlen (renc late)), r2, o2, kb, (8, 4), o3, [(kb, (8, 4)); (ka, (11, 3))].
  split; [exact kc_ok|]. split; [exact s1_runs|]. split; [vm_compute; reflexivity|]. split; [discriminate|].
  split; [vm_compute; reflexivity|]. split; [vm_compute; reflexivity|]. split; [vm_compute; reflexivity|]. split; [discriminate|].
  split; [vm_compute; reflexivity|]. split; [vm_compute; reflexivity|]. split; vm_compute; reflexivity.
Qed.

Definition kc2 : config := mkConfig 150 1000 100 100 100 3600.
Definition s3 : offsets := match oputs 100 kc2 [(ka, (5, 1)); (kb, (7, 1)); (ka, (9, 2))] (s0 kc2) with Some s => s | None => s0 kc2 end.
Lemma s3_runs : oruns 100 kc2 s3.
Proof. apply (oputs_runs 100 kc2 [(ka, (5, 1)); (kb, (7, 1)); (ka, (9, 2))] (s0 kc2)); [constructor|]. vm_compute. reflexivity. Qed.
Lemma retention_refuted : exists th c s r k v,
  config_ok c /\ oruns th c s /\ exec c (kv_store (of_kv s)) CleanSize = Done r
  /\ lookup k (kv_cache (of_kv s)) = Some v /\ of_open r = Err Panic.
Proof.
  exists 100, kc2, s3, (enforce_size kc2 (kv_store (of_kv s3))), kb, (7, 1). split; [unfold config_ok, kc2; cbn; lia|]. split; [exact s3_runs|].
  split; [reflexivity|]. split; vm_compute; reflexivity.
Qed.

Definition kc3 : config := mkConfig 1000 140 100 100 100000 3600.
Definition many : list (key * value) := concat (repeat [(ka, (5, 1)); (kb, (7, 1))] 50).
Definition s4 : offsets := match oputs 100 kc3 many (s0 kc3) with Some s => s | None => s0 kc3 end.
Definition s5 : offsets := fst (of_put 100 kc3 0 true true true (fun t => t) s4 ka (9, 2)).
Lemma s4_runs : oruns 100 kc3 s4.
Proof.
  apply (oputs_runs 100 kc3 many (s0 kc3)); [constructor|]. unfold s4.
  assert (match oputs 100 kc3 many (s0 kc3) with Some _ => true | None => false end = true) as E by (vm_compute; reflexivity).
  destruct (oputs 100 kc3 many (s0 kc3)); [reflexivity|discriminate].
Qed.
Lemma flush_refuted : exists c s k v s' v' s'',
  config_ok c /\ oruns 100 c s
  /\ of_put 100 c 0 true true true (fun t => t) s k v = (s', false) /\ lookup k (kv_cache (of_kv s')) = Some v
  /\ of_put 100 c 0 true true true (fun t => t) s' k v' = (s'', false) /\ lookup k (kv_cache (of_kv s'')) = Some v'.
Proof.
  exists kc3, s4, ka, (9, 2), s5, (10, 2), (fst (of_put 100 kc3 0 true true true (fun t => t) s5 ka (10, 2))).
  split; [unfold config_ok, kc3; cbn; lia|]. split; [exact s4_runs|].
  split; [vm_compute; reflexivity|]. split; [vm_compute; reflexivity|]. split; vm_compute; reflexivity.
Qed.

Definition s6 : kv := fst (kv_put kc 0 false true (mkKv [] (fresh kc 0)) ka (5, 1)).
Definition T6 : list snapshot := [(0, kv_cache s6, false)].
Lemma s6_runs : kruns kc s6 T6.
Proof.
  refine (k_put kc (mkKv [] (fresh kc 0)) [] 0 false true ka (5, 1) s6 true (k_start kc 0) (key_goodb_ok ka eq_refl) (value_goodb_ok (5, 1) eq_refl) (fitsb_ok _ _ _) _).
  - vm_compute. reflexivity.
  - vm_compute. reflexivity.
Qed.
Lemma behind_refuted : exists c s T k v r now,
  config_ok c /\ kruns c s T /\ lookup k (kv_cache s) = Some v /\ get_log_start (kv_store s) = 0
  /\ exec c (kv_store s) (Restart now (Value (get_hw (kv_store s)))) = Done r /\ replay r = Ok [].
Proof.
  exists kc, s6, T6, ka, (5, 1), (match exec kc (kv_store s6) (Restart 0 (Value 0)) with Done r => r | Fail _ => kv_store s6 end), 0.
  split; [exact kc_ok|]. split; [exact s6_runs|]. split; [vm_compute; reflexivity|]. split; [vm_compute; reflexivity|]. split; vm_compute; reflexivity.
Qed.

(** An example in which the second and the third change were followed by a
    flush. *)
Definition s7 : offsets := match oputs 1 kc [(ka, (5, 1)); (kb, (7, 1)); (ka, (9, 2))] (s0 kc) with Some s => s | None => s0 kc end.
Lemma s7_runs : oruns 1 kc s7.
Proof. apply (oputs_runs 1 kc [(ka, (5, 1)); (kb, (7, 1)); (ka, (9, 2))] (s0 kc)); [constructor|]. vm_compute. reflexivity. Qed.
