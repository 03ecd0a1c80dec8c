(** Concrete logs and chains for the theorems about SmartModules. *)
From Verif Require Import StorageSpec RecordSpec RecordProofs StorageProofs ReplicaProofs StorageClaims ReplicationClaims ListFacts.
From Verif Require Import StreamModel StreamSpec StreamProofs StreamClaims LookbackModel LookbackSpec LookbackProofs LookbackClaims.
From Verif Require Import EngineModel EngineSpec EngineProofs.

(** * Modules *)
Definition first_byte (v : bytes) : Z := match v with x :: _ => x | [] => 0 end.
Definition module (f : ufun) : inst := mkInst f [] [].
(** sums up the values *)
Definition total : inst := module (UAggregate (fun m a v => (m, UOk [first_byte a + first_byte (v_val v)]))).
(** every second record, with a counter in memory *)
Definition second : inst := module (UFilter (fun m _ => ([1 - first_byte m], UOk (first_byte m =? 1)))).
Definition all_pass : inst := module (UFilter (fun m _ => (m, UOk true))).
(** fails on a value *)
Definition not_a (n : Z) : inst := module (UFilter (fun m v => (m, if first_byte (v_val v) =? n then UErr else UOk true))).
(** hides the value *)
Definition hide : inst := module (UMap (fun m v => (m, UOk (v_key v, [0])))).
Definition copies : inst := module (UArrayMap (fun m v => (m, UOk [(v_key v, v_val v); (v_key v, v_val v)]))).
Definition itself : inst := module (UArrayMap (fun m v => (m, UOk [(v_key v, v_val v)]))).
Definition at_offset (o : Z) : inst := module (UFilter (fun m v => (m, UOk (v_off v =? o)))).

(** * One stream over three batches *)
Definition got (x : option stream) : list (kv + smerr) := match x with Some t => told_all t | None => [] end.
Definition value (n : Z) : kv + smerr := inl (None, [n]).
Lemma lb_aligned o : In o [0; 2; 4; 6] -> aligned o lb_H.
Proof. intros IN b IB. vm_compute in IB. repeat destruct IN as [<-|IN]; try contradiction IN; repeat destruct IB as [<-|IB]; try contradiction IB; vm_compute; intros E; try discriminate E; discriminate. Qed.
Lemma lb_reach is o out : In o [0; 2; 4; 6] -> in_reach lb_r lb_H (mkStream is o out).
Proof.
  intros IN. split; [|split; [|apply lb_aligned; exact IN]]; cbn [t_pos].
  - replace (m_base (r_active lb_r)) with 0 by (vm_compute; reflexivity). repeat destruct IN as [<-|IN]; try contradiction IN; lia.
  - replace (get_log_start lb_r) with 0 by (vm_compute; reflexivity). repeat destruct IN as [<-|IN]; try contradiction IN; lia.
Qed.
Definition odd_chain : list inst := [second; total].
Lemma whole_demo : arrays_last odd_chain /\ 0 <= 0 <= log_limit ReadCommitted lb_r /\ in_reach lb_r lb_H (open_stream odd_chain 0) /\ smooth ReadCommitted 1000 lb_r lb_H (open_stream odd_chain 0)
  /\ exists t, serve ReadCommitted 1000 0 lb_r (open_stream odd_chain 0) = Some t /\ streamed lb_c ReadCommitted 1000 0 odd_chain lb_r lb_H lb_r lb_H t
     /\ told_all t = [value 2; value 6; value 12].
Proof.
  assert (in_reach lb_r lb_H (open_stream odd_chain 0)) as RE by (apply lb_reach; cbn; auto).
  assert (smooth ReadCommitted 1000 lb_r lb_H (open_stream odd_chain 0)) as SM by (eexists; eexists; split; [vm_compute; reflexivity|vm_compute; discriminate]).
  split; [cbn; auto|]. split; [vm_compute; split; discriminate|]. split; [exact RE|]. split; [exact SM|].
  destruct (serve ReadCommitted 1000 0 lb_r (open_stream odd_chain 0)) as [t|] eqn:SV.
  - exists t. split; [reflexivity|]. split; [eapply sd_serve; [apply sd_start|exact RE|exact SM|exact SV]|].
    assert (got (Some t) = [value 2; value 6; value 12]) as G by (rewrite <- SV; vm_compute; reflexivity). exact G.
  - exfalso. assert (got (@None stream) = [value 2; value 6; value 12]) as G by (rewrite <- SV; vm_compute; reflexivity). discriminate G.
Qed.

(** * The same two records in one batch and in two *)
Definition together : list (batch bytes) := [timed 100 [[1]; [2]]].
Definition apart : list (batch bytes) := [timed 100 [[1]]; timed 101 [[2]]].
Definition log (l : list (batch bytes)) : replica := put lb_c true (fresh lb_c 0) l.
Lemma together_hist : hist lb_c (log together) (number 0 together).
Proof.
  change (number 0 together) with ([] ++ number (get_leo (fresh lb_c 0)) (firstn 1 together)). apply hist_put; [constructor| | | |].
  - unfold together. repeat (constructor; [timed_ok|]). constructor.
  - room_tac.
  - unfold together. repeat (constructor; [honest_tac|]). constructor.
  - vm_compute. repeat split; reflexivity.
Qed.
Lemma apart_hist : hist lb_c (log apart) (number 0 apart).
Proof.
  change (number 0 apart) with ([] ++ number (get_leo (fresh lb_c 0)) (firstn 2 apart)). apply hist_put; [constructor| | | |].
  - unfold apart. repeat (constructor; [timed_ok|]). constructor.
  - room_tac.
  - unfold apart. repeat (constructor; [honest_tac|]). constructor.
  - vm_compute. repeat split; reflexivity.
Qed.
Lemma batching_refuted : exists c is mx r H r' H' t t', config_ok c /\ hist c r H /\ hist c r' H' /\ Forall numbered H /\ Forall numbered H' /\ same_records H H'
  /\ serve ReadCommitted mx 0 r (open_stream is 0) = Some t /\ t_pos t = get_hw r
  /\ serve ReadCommitted mx 0 r' (open_stream is 0) = Some t' /\ t_pos t' = get_hw r'
  /\ told_all t = [] /\ told_all t' = [value 2].
Proof.
  exists lb_c, [itself; at_offset 1], 1000, (log together), (number 0 together), (log apart), (number 0 apart). eexists. eexists.
  split; [apply lb_c_ok|]. split; [apply together_hist|]. split; [apply apart_hist|].
  split; [unfold together; cbn [number]; repeat (constructor; [numbered_tac|]); constructor|]. split; [unfold apart; cbn [number]; repeat (constructor; [numbered_tac|]); constructor|].
  split; [vm_compute; reflexivity|]. split; [vm_compute; reflexivity|]. split; [vm_compute; reflexivity|]. split; [vm_compute; reflexivity|]. split; [vm_compute; reflexivity|]. split; vm_compute; reflexivity.
Qed.

(** * A response that is full *)
Lemma twice_refuted : exists c is mx r H t1 t2 is' outs, config_ok c /\ hist c r H /\ Forall numbered H /\ no_arrays is /\ in_reach r H (open_stream is 0)
  /\ (forall b, In b H -> c_size memory_codec (map snd (records_of b)) <= mx)
  /\ serve ReadCommitted mx 0 r (open_stream is 0) = Some t1 /\ serve ReadCommitted mx 0 r t1 = Some t2
  /\ whole is (log_of (batches_between 0 (t_pos t2) H)) = Some (is', outs)
  /\ map (fun v => inl (pair_of v)) outs = [value 1; value 3; value 6; value 10]
  /\ told_all t2 = [value 1; value 3; value 13; value 17].
Proof.
  exists lb_c, [total], 30, lb_r, lb_H. eexists. eexists. eexists. eexists. split; [apply lb_c_ok|]. split; [apply lb_hist|]. split; [apply lb_numbered|].
  split; [repeat constructor|]. split; [apply lb_reach; cbn; auto|]. split.
  { intros b IN. vm_compute in IN. repeat destruct IN as [<-|IN]; try contradiction IN; vm_compute; discriminate. }
  split; [vm_compute; reflexivity|]. split; [vm_compute; reflexivity|]. split; [vm_compute; reflexivity|]. split; vm_compute; reflexivity.
Qed.

(** * Errors *)
Lemma fails_demo : let front := [second] in let i := not_a 4 in let t := open_stream (front ++ [i]) 0 in
  no_arrays front /\ 0 <= 0 <= log_limit ReadCommitted lb_r /\ streamed lb_c ReadCommitted 1000 0 (front ++ [i]) lb_r lb_H lb_r lb_H t /\ in_reach lb_r lb_H t
  /\ exists f' before bad after i1 outs, whole front (log_of (ahead ReadCommitted 0 lb_r lb_H)) = Some (f', before ++ bad :: after) /\ over i before = Some (i1, outs) /\ rejects i1 bad /\ bulk outs <= 1000
     /\ map pair_of outs = [(None, [2])] /\ blames bad = mkErr 3 None [4] /\ told_all t <> map inl (map pair_of outs).
Proof.
  cbv zeta. split; [repeat constructor|]. split; [vm_compute; split; discriminate|]. split; [apply sd_start|]. split; [apply lb_reach; cbn; auto|].
  eexists. exists [mkSeen 1 101 None [2]], (mkSeen 3 201 None [4]), [mkSeen 5 301 None [6]]. eexists. eexists. split; [vm_compute; reflexivity|]. split; [vm_compute; reflexivity|].
  split; [vm_compute; reflexivity|]. split; [vm_compute; discriminate|]. split; [vm_compute; reflexivity|]. split; [vm_compute; reflexivity|]. vm_compute. discriminate.
Qed.
(** What was to be hidden is delivered, because an earlier module failed later. *)
Lemma unfinished_refuted : exists c i j mx r H t', config_ok c /\ hist c r H /\ Forall numbered H /\ in_reach r H (open_stream [i; j] 0)
  /\ (forall v, one j v = Some (j, [remake v (v_key v, [0])]))
  /\ serve ReadCommitted mx 0 r (open_stream [i; j] 0) = Some t' /\ told_all t' = [value 1; inr (mkErr 1 None [2])].
Proof.
  exists lb_c, (not_a 2), hide, 1000, lb_r, lb_H. eexists. split; [apply lb_c_ok|]. split; [apply lb_hist|]. split; [apply lb_numbered|]. split; [apply lb_reach; cbn; auto|].
  split; [reflexivity|]. split; vm_compute; reflexivity.
Qed.
(** The rest of the batch is skipped; *)
Definition three : list (batch bytes) := [timed 100 [[1]; [2]; [3]]].
Lemma three_hist : hist lb_c (log three) (number 0 three).
Proof.
  change (number 0 three) with ([] ++ number (get_leo (fresh lb_c 0)) (firstn 1 three)). apply hist_put; [constructor| | | |].
  - unfold three. repeat (constructor; [timed_ok|]). constructor.
  - room_tac.
  - unfold three. repeat (constructor; [honest_tac|]). constructor.
  - vm_compute. repeat split; reflexivity.
Qed.
Lemma skipped_refuted : exists c i mx r H t' good, config_ok c /\ hist c r H /\ Forall numbered H
  /\ In good (log_of (ahead ReadCommitted 0 r H)) /\ v_val good = [3] /\ one i good = Some (i, [good])
  /\ serve ReadCommitted mx 0 r (open_stream [i] 0) = Some t' /\ told_all t' = [value 1; inr (mkErr 1 None [2])]
  /\ serve ReadCommitted mx 0 r t' = Some t'.
Proof.
  exists lb_c, (not_a 2), 1000, (log three), (number 0 three). eexists. exists (mkSeen 2 102 None [3]). split; [apply lb_c_ok|]. split; [apply three_hist|].
  split; [unfold three; cbn [number]; repeat (constructor; [numbered_tac|]); constructor|]. split; [vm_compute; auto|]. split; [reflexivity|]. split; [vm_compute; reflexivity|].
  split; [vm_compute; reflexivity|]. split; vm_compute; reflexivity.
Qed.
(** and everything that is committed, if nothing was delivered before the error. *)
Lemma all_skipped_refuted : exists c i mx r H t', config_ok c /\ hist c r H /\ Forall numbered H
  /\ map v_val (log_of (ahead ReadCommitted 0 r H)) = [[1]; [2]; [3]; [4]; [5]; [6]] /\ (forall v, first_byte (v_val v) <> 1 -> one i v = Some (i, [v]))
  /\ serve ReadCommitted mx 0 r (open_stream [i] 0) = Some t' /\ told_all t' = [inr (mkErr 0 None [1])]
  /\ serve ReadCommitted mx 0 r t' = Some t'.
Proof.
  exists lb_c, (not_a 1), 1000, lb_r, lb_H. eexists. split; [apply lb_c_ok|]. split; [apply lb_hist|]. split; [apply lb_numbered|]. split; [vm_compute; reflexivity|].
  split; [|split; [vm_compute; reflexivity|split; vm_compute; reflexivity]].
  intros v N. unfold one, not_a, module, answer. cbn [n_fun n_mem n_acc snd fst]. replace (first_byte (v_val v) =? 1) with false by lia. reflexivity.
Qed.
Lemma resumes_demo : exists t, let s := 0 in in_reach lb_r lb_H t /\ 0 <= s <= t_pos t /\ t_pos t <= log_limit ReadCommitted lb_r /\ arrays_last (t_chain t)
  /\ smooth ReadCommitted 1000 lb_r lb_H t /\ told_all t = [value 1; inr (mkErr 1 None [2])] /\ map v_val (log_of (ahead ReadCommitted (t_pos t) lb_r lb_H)) = [[3]; [4]; [5]; [6]].
Proof.
  exists (mkStream [not_a 2] 2 [GRec (mkCrec 0 0 (-1) (text [1])); GErr (mkErr 1 None [2])]). cbv zeta. split; [apply lb_reach; cbn; auto|]. split; [cbn; lia|]. split; [vm_compute; discriminate|].
  split; [cbn; auto|]. split; [eexists; eexists; split; [vm_compute; reflexivity|vm_compute; discriminate]|]. split; vm_compute; reflexivity.
Qed.
Lemma resumes c iso mx s r H t : config_ok c -> hist c r H -> Forall numbered H -> in_reach r H t -> 0 <= s <= t_pos t -> t_pos t <= log_limit iso r -> arrays_last (t_chain t) ->
  smooth iso mx r H t ->
  exists t' outs, serve iso mx s r t = Some t' /\ whole (t_chain t) (log_of (ahead iso (t_pos t) r H)) = Some (t_chain t', outs) /\ told_all t' = told_all t ++ map inl (map pair_of outs).
Proof.
  intros CO HI NU RE POS LIM AL (is' & outs & W & SZ).
  destruct (serve_ok c iso mx s r H t CO (hist_logged _ _ _ CO HI) NU RE POS LIM is' outs AL W SZ) as (t' & SV & TC & TT & _). exists t', outs. rewrite TC. auto.
Qed.

(** * Timestamps *)
Lemma given_time iso mx s r is pos t' : serve iso mx s r (mkStream is pos []) = Some t' -> forall c, In (GRec c) (t_out t') -> consumer_time c = -1.
Proof. intros SV. apply (no_time _ _ _ _ _ _ SV). intros c []. Qed.
Lemma written_time is l is' b : transform is l = Stored is' [b] -> h_first_ts (b_hdr b) = -1 /\ h_max_ts (b_hdr b) = -1.
Proof.
  unfold transform. destruct (engine_from is _ l out0) as [[[is1 a] [e|]]|]; [discriminate| |discriminate]. intros E. inversion E as [[E1 E2]].
  destruct (q_recs a); inversion E2. split; reflexivity.
Qed.
Lemma written_demo : exists is' b, transform [all_pass] [timed 100 [[1]; [2]]] = Stored is' [b] /\ h_first_ts (b_hdr (timed 100 [[1]; [2]])) = 100.
Proof. eexists. eexists. split; vm_compute; reflexivity. Qed.
Lemma plain_time b m : to_memory b = Ok m -> numbered b -> 0 < h_first_ts (b_hdr b) ->
  map (fun c => (cr_offset c, consumer_time c)) (into_consumer_records m 0) = map (fun x => (offset_of x, time_of x)) (stamped b).
Proof.
  intros T _ P. unfold stamped, records_of. rewrite T. unfold into_consumer_records. assert (b_base m = b_base b /\ b_hdr m = b_hdr b) as (-> & ->).
  { unfold to_memory in T. destruct (memory_records (b_recs b)); [|discriminate]. cbn [bind] in T. inversion T. auto. }
  rewrite !map_map. assert (forall l x i, b_base b + i = x ->
    map (fun c => (cr_offset c, consumer_time c)) (consumer_records_from (b_base b) 0 (h_first_ts (b_hdr b)) i l) = map (fun y => (offset_of (stamp b y), time_of (stamp b y))) (number_records x l)) as G.
  { induction l as [|r l IH]; intros x i E; [reflexivity|]. cbn [consumer_records_from number_records map]. rewrite (IH (x + 1) (i + 1)) by lia.
    unfold consumer_time at 1. cbn [cr_offset cr_ts_base cr_rec]. replace (h_first_ts (b_hdr b) <=? 0) with false by lia. unfold stamp, offset_of, time_of. cbn [fst snd]. rewrite E. reflexivity. }
  apply G. lia.
Qed.
Lemma plain_time_demo : let b := timed 100 [[1]; [2]] in exists m, to_memory b = Ok m /\ numbered b /\ 0 < h_first_ts (b_hdr b) /\ map (fun x => (offset_of x, time_of x)) (stamped b) = [(0, 100); (1, 101)].
Proof. cbv zeta. eexists. split; [vm_compute; reflexivity|]. split; [numbered_tac|]. split; [vm_compute; reflexivity|vm_compute; reflexivity]. Qed.
Lemma time_refuted : exists c mx r H t', config_ok c /\ hist c r H /\ Forall numbered H
  /\ serve ReadCommitted mx 0 r (open_stream [all_pass] 0) = Some t' /\ told_all t' = map inl (map pair_of (log_of (ahead ReadCommitted 0 r H)))
  /\ map v_ts (log_of (ahead ReadCommitted 0 r H)) = [100; 101; 200; 201; 300; 301]
  /\ forall g, In g (t_out t') -> exists c, g = GRec c /\ consumer_time c = -1.
Proof.
  exists lb_c, 1000, lb_r, lb_H. eexists. split; [apply lb_c_ok|]. split; [apply lb_hist|]. split; [apply lb_numbered|]. split; [vm_compute; reflexivity|]. split; [vm_compute; reflexivity|].
  split; [vm_compute; reflexivity|]. intros g IN. cbn [t_out] in IN. repeat destruct IN as [<-|IN]; try contradiction IN; (eexists; split; [reflexivity|vm_compute; reflexivity]).
Qed.
Lemma look_back_refuted : exists c r H n l, config_ok c /\ hist c r H /\ Forall numbered H /\ read_lookback r (Last n) = Done l /\ l = map snd (lastn (Z.to_nat n) (committed r H))
  /\ map (fun v => (v_off v, v_ts v)) (map as_seen (lastn (Z.to_nat n) (committed r H))) = [(3, 201); (4, 300); (5, 301)]
  /\ map (fun v => (v_off v, v_ts v)) (look_back_input l) = [(1, 1); (0, 0); (1, 1)].
Proof.
  exists lb_c, lb_r, lb_H, 3. eexists. split; [apply lb_c_ok|]. split; [apply lb_hist|]. split; [apply lb_numbered|]. split; [vm_compute; reflexivity|]. split; [vm_compute; reflexivity|].
  split; vm_compute; reflexivity.
Qed.

(** * Writes *)
Ltac sent_tac := split; [reflexivity|split; [vm_compute; reflexivity|split; [honest_tac|numbered_tac]]].
Lemma stores_each is is' vs l : Forall sent l -> l <> [] -> one_each is -> whole is (log_of l) = Some (is', vs) -> bulk vs <= 2 ^ 64 - 1 ->
  exists m, transform is l = Stored is' [to_raw m] /\ map (fun r => (r_key r, r_val r)) (b_recs m) = map pair_of vs
    /\ records_len (to_raw m) = zlen (log_of l) /\ (records_ok (b_recs m) -> honest (to_raw m)).
Proof.
  intros SE NE OE W SZ. destruct (transform_ok _ _ _ _ SE NE OE W SZ) as (m & T & K & L & Z). exists m. split; [exact T|]. split; [exact K|].
  split; [rewrite <- Z, <- L; reflexivity|]. intros OK. apply raw_honest; assumption.
Qed.
Definition two_writes : list (batch bytes) := [timed 100 [[1]; [2]]; timed 101 [[3]]].
Lemma stores_demo : Forall sent two_writes /\ one_each [hide; total] /\ one_each [total; hide]
  /\ exists is vs m, whole [total] (log_of two_writes) = Some (is, vs) /\ bulk vs <= 2 ^ 64 - 1 /\ map pair_of vs = [(None, [1]); (None, [3]); (None, [6])]
     /\ transform [total] two_writes = Stored is [to_raw m] /\ records_ok (b_recs m).
Proof.
  split; [unfold two_writes; repeat (constructor; [sent_tac|]); constructor|]. split; [repeat constructor|]. split; [repeat constructor|].
  eexists. eexists. exists (mkBatch 0 0 (with_last_delta default_header 2) 0 [mkRec 0 0 0 None [1] 0; mkRec 0 1 1 None [3] 0; mkRec 0 0 0 None [6] 0]).
  split; [vm_compute; reflexivity|]. split; [vm_compute; discriminate|]. split; [vm_compute; reflexivity|]. split; [vm_compute; reflexivity|].
  split; [|vm_compute; reflexivity]. repeat (constructor; [unfold rec_ok, payload_ok, in_s, is_bytes; cbn [r_attr r_ts r_off r_key r_val r_headers]; repeat split; try (vm_compute; (reflexivity || discriminate)); repeat constructor; lia|]). constructor.
Qed.
(** A filter: the stored batch announces more records than it has. *)
Lemma gaps_refuted : exists is is' b b' m, Forall sent [b] /\ transform is [b] = Stored is' [b'] /\ to_memory b' = Ok m /\ map r_val (b_recs m) = [[2]] /\ records_len b' = 2.
Proof.
  exists [at_offset 1]. eexists. exists (timed 100 [[1]; [2]]). eexists. eexists. split; [repeat (constructor; [sent_tac|]); constructor|].
  split; [vm_compute; reflexivity|]. split; [vm_compute; reflexivity|]. split; vm_compute; reflexivity.
Qed.
(** An array-map: two records at one offset. *)
Lemma same_offset_refuted : exists c is is' is'' b1 b2 l1 l2, let r := put c true (put c true (fresh c 0) l1) l2 in
  config_ok c /\ Forall sent [b1; b2] /\ transform is [b1] = Stored is' l1 /\ transform is' [b2] = Stored is'' l2
  /\ quiet (plain 1000) (at_rest (plain 1000) 0 r)
  /\ map val_of (seen (at_rest (plain 1000) 0 r)) = [Some (0, [1]); Some (1, [1]); Some (1, [2]); Some (2, [2])].
Proof.
  exists lb_c, [copies]. eexists. eexists. exists (timed 100 [[1]]), (timed 101 [[2]]). eexists. eexists. cbv zeta. split; [apply lb_c_ok|].
  split; [repeat (constructor; [sent_tac|]); constructor|]. split; [vm_compute; reflexivity|]. split; [vm_compute; reflexivity|].
  split; [rest_tac|]. vm_compute. reflexivity.
Qed.
(** Two batches in one request: SmartModules of consumers see wrong offsets. *)
Lemma positions_refuted : exists is is' l b m, Forall sent l /\ one_each is /\ transform is l = Stored is' [b] /\ honest b
  /\ to_memory b = Ok m /\ map (fun r => v_off (show 0 0 r)) (b_recs m) = [0; 1; 0].
Proof.
  exists [total]. eexists. exists two_writes. eexists. eexists. split; [apply stores_demo|]. split; [repeat constructor|]. split; [vm_compute; reflexivity|].
  split; [honest_tac|]. split; vm_compute; reflexivity.
Qed.
(** A write that is refused leaves its traces. *)
Lemma traces_refuted : exists is l, Forall (Forall sent) l
  /\ map stored_values (writes is l) = [Some [[1]]; None; Some [[4]]]
  /\ map stored_values (writes is (firstn 1 l ++ skipn 2 l)) = [Some [[1]]; Some [[2]]].
Proof.
  exists [total; not_a 3], [[timed 100 [[1]]]; [timed 101 [[2]]]; [timed 102 [[1]]]]. split; [repeat (constructor; [repeat (constructor; [sent_tac|]); constructor|]); constructor|].
  split; vm_compute; reflexivity.
Qed.
