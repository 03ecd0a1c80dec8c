(** Proofs about produce responses. *)
From Verif Require Import ProduceModel StorageSpec ProduceSpec RecordSpec RecordProofs StorageProofs ReplicaProofs StorageClaims ClusterProofs ListFacts.

Lemma handle_ok c now dedup ld l l' ld' res : dedup l = Some l' -> 0 < total l' ->
  handle_partition c now dedup ld l = (ld', res) -> p_code res = NoError ->
  write_recordset c now (l_store ld) l' (l_isr ld =? 1) = (l_store ld', None)
  /\ p_base res = get_leo (l_store ld) /\ p_leo res = get_leo (l_store ld').
Proof.
  intros D T H E. unfold handle_partition, write_record_set in H. rewrite D, total_records_eq in H. replace (total l' =? 0) with false in H by lia.
  destruct (l_compression ld) as [alg|]; [|inversion H; subst; discriminate].
  destruct (validate_records l alg); [|inversion H; subst; discriminate].
  destruct (write_recordset c now (l_store ld) l' (l_isr ld =? 1)) as [r' [e|]]; inversion H; subst; clear H.
  - destruct e; discriminate.
  - auto.
Qed.

Lemma produce_ok c now pre dedup ld l l1 l2 ld' res : pre l = Some l1 -> 0 < total l1 -> dedup l1 = Some l2 -> 0 < total l2 ->
  produce_partition c now pre dedup (Some ld) l = (ld', res) -> p_code res = NoError ->
  exists ld1, ld' = Some ld1 /\ write_recordset c now (l_store ld) l2 (l_isr ld =? 1) = (l_store ld1, None)
  /\ p_base res = get_leo (l_store ld) /\ p_leo res = get_leo (l_store ld1).
Proof.
  intros P T D T2 H E. unfold produce_partition in H. rewrite P, total_records_eq in H. replace (total l1 =? 0) with false in H by lia.
  destruct (handle_partition c now dedup ld l1) as [ld1 res1] eqn:HP. inversion H; subst; clear H.
  exists ld1. split; [reflexivity|]. eapply handle_ok; eassumption.
Qed.

Lemma stored_where_said c now pre dedup ld l l1 l2 ld' res : config_ok c -> reached c (l_store ld) ->
  pre l = Some l1 -> 0 < total l1 -> dedup l1 = Some l2 -> 0 < total l2 -> Forall raw_batch_ok l2 -> room (l_store ld) l2 ->
  produce_partition c now pre dedup (Some ld) l = (ld', res) -> p_code res = NoError ->
  exists ld1, ld' = Some ld1 /\ appended (l_store ld) (l_store ld1) (p_base res) l2.
Proof.
  intros CO R P T D T2 OK RM H E. destruct (produce_ok _ _ _ _ _ _ _ _ _ _ P T D T2 H E) as (ld1 & -> & W & B & LEO).
  exists ld1. split; [reflexivity|]. destruct (append_contiguous _ _ _ _ _ _ CO R OK RM W) as (A1 & A2 & A3 & _).
  unfold appended. rewrite B. auto.
Qed.

Lemma nothing_left c now pre dedup ld l l1 ld' res : pre l = Some l1 -> (total l1 = 0 \/ exists l2, dedup l1 = Some l2 /\ total l2 = 0) ->
  produce_partition c now pre dedup (Some ld) l = (ld', res) -> ld' = Some ld.
Proof.
  intros P T H. unfold produce_partition in H. rewrite P, total_records_eq in H.
  destruct (total l1 =? 0) eqn:Z0; [inversion H; reflexivity|]. destruct T as [T|(l2 & D & T)]; [lia|].
  unfold handle_partition, write_record_set in H. rewrite D, total_records_eq, T in H. cbn in H.
  destruct (l_compression ld) as [alg|]; [|inversion H; reflexivity].
  destruct (validate_records l1 alg); inversion H; reflexivity.
Qed.

Lemma leader_eta ld : with_store ld (l_store ld) = ld.
Proof. destruct ld. reflexivity. Qed.

Lemma refused_unchanged c now pre dedup ld l ld' res : config_ok c -> reached c (l_store ld) ->
  (forall l1 l2, pre l = Some l1 -> dedup l1 = Some l2 -> Forall raw_batch_ok l2 /\ room (l_store ld) l2) ->
  produce_partition c now pre dedup (Some ld) l = (ld', res) -> refused (p_code res) -> ld' = Some ld.
Proof.
  intros CO R OK H E. unfold produce_partition in H. destruct (pre l) as [l1|] eqn:P; [|inversion H; reflexivity].
  destruct (total_records l1 =? 0); [inversion H; reflexivity|].
  unfold handle_partition, write_record_set in H.
  destruct (l_compression ld) as [alg|]; [|inversion H; reflexivity].
  destruct (validate_records l1 alg); [|inversion H; reflexivity].
  destruct (dedup l1) as [l2|] eqn:D; [|inversion H; reflexivity]. specialize (OK _ _ eq_refl D) as (OK & RM).
  destruct (total_records l2 =? 0); [inversion H; reflexivity|].
  destruct (write_recordset c now (l_store ld) l2 (l_isr ld =? 1)) as [r' [e|]] eqn:W; inversion H; subst; clear H; [|contradiction].
  assert (e = BatchExceededSegment \/ e = BatchTooBig \/ e = ShortCircuited) as He by (destruct e; cbn in E; try contradiction; auto).
  rewrite (rejected_unchanged _ _ _ _ _ _ _ CO R OK RM W He), leader_eta. reflexivity.
Qed.
(** A wait does not turn an outcome of the write into a refusal. *)
Lemma wait_not_refusal iso res first later : refused (p_code (wait_for_ack iso res first later)) -> wait_for_ack iso res first later = res.
Proof.
  unfold wait_for_ack. destruct iso; [|reflexivity]. destruct (p_code res) eqn:E; try reflexivity. cbn [p_code].
  destruct first as [x|]; [|contradiction]. assert (forall looks, refused (wait_hw (p_leo res) looks) -> False) as F.
  { induction looks as [|y t IH]; cbn; [auto|]. destruct (p_leo res <=? get_hw (l_store y)); auto. }
  intros H. destruct (F _ H).
Qed.
Lemma refused_response c iso now pre dedup ld l ld' res first later : config_ok c -> reached c (l_store ld) ->
  (forall l1 l2, pre l = Some l1 -> dedup l1 = Some l2 -> Forall raw_batch_ok l2 /\ room (l_store ld) l2) ->
  produce_partition c now pre dedup (Some ld) l = (ld', res) -> refused (p_code (wait_for_ack iso res first later)) -> ld' = Some ld.
Proof. intros CO R OK H E. rewrite (wait_not_refusal _ _ _ _ E) in E. eapply refused_unchanged; eassumption. Qed.
Lemma refused_because c now pre dedup ld l l1 :
  (pre l = None -> p_code (snd (produce_partition c now pre dedup (Some ld) l)) = SmartModuleError)
  /\ (pre l = Some l1 -> 0 < total l1 -> l_compression ld = None -> p_code (snd (produce_partition c now pre dedup (Some ld) l)) = TopicNotFound)
  /\ (forall alg b x, pre l = Some l1 -> 0 < total l1 -> l_compression ld = Some (Some alg) -> In b l1 -> get_compression (b_hdr b) = Ok x -> x <> alg ->
      p_code (snd (produce_partition c now pre dedup (Some ld) l)) = CompressionError)
  /\ (forall alg l2 b, pre l = Some l1 -> 0 < total l1 -> l_compression ld = Some alg -> validate_records l1 alg = true -> dedup l1 = Some l2 -> 0 < total l2 ->
      In b l2 -> c_seg_max c < batch_size raw_codec b \/ c_req_max c < batch_size raw_codec b ->
      p_code (snd (produce_partition c now pre dedup (Some ld) l)) = MessageTooLarge)
  /\ (forall alg b e, pre l = Some l1 -> 0 < total l1 -> l_compression ld = Some alg -> In b l1 -> get_compression (b_hdr b) = Err e ->
      p_code (snd (produce_partition c now pre dedup (Some ld) l)) = CompressionError)
  /\ (forall alg, pre l = Some l1 -> 0 < total l1 -> l_compression ld = Some alg -> validate_records l1 alg = true -> dedup l1 = None ->
      p_code (snd (produce_partition c now pre dedup (Some ld) l)) = SmartModuleError).
Proof.
  unfold produce_partition, handle_partition. split; [intros ->; reflexivity|].
  split; [intros -> T ->; rewrite total_records_eq; replace (total l1 =? 0) with false by lia; reflexivity|]. split; [|split; [|split]].
  - intros alg b x -> T -> IN GC NE. rewrite total_records_eq. replace (total l1 =? 0) with false by lia.
    replace (validate_records l1 (Some alg)) with false; [reflexivity|]. symmetry. unfold validate_records.
    apply Bool.not_true_is_false. intros F. rewrite forallb_forall in F. specialize (F _ IN). rewrite GC in F. lia.
  - intros alg l2 b -> T -> V D T2 IN BIG. rewrite !total_records_eq, V. unfold write_record_set. rewrite D, total_records_eq.
    replace (total l1 =? 0) with false by lia. replace (total l2 =? 0) with false by lia.
    destruct (too_large_rejected c now (l_store ld) l2 (l_isr ld =? 1) b IN BIG) as (e & He & ->).
    destruct He as [->| ->]; reflexivity.
  - intros alg b e -> T -> IN GC. rewrite total_records_eq. replace (total l1 =? 0) with false by lia.
    replace (validate_records l1 alg) with false; [reflexivity|]. symmetry. unfold validate_records.
    apply Bool.not_true_is_false. intros F. rewrite forallb_forall in F. specialize (F _ IN). rewrite GC in F. discriminate.
  - intros alg -> T -> V D. rewrite total_records_eq, V. unfold write_record_set. rewrite D.
    replace (total l1 =? 0) with false by lia. reflexivity.
Qed.

(** * Waiting *)
Lemma wait_hw_ok leo looks : wait_hw leo looks = NoError -> exists ld, In ld looks /\ leo <= get_hw (l_store ld).
Proof.
  induction looks as [|ld t IH]; cbn; [discriminate|]. destruct (leo <=? get_hw (l_store ld)) eqn:E.
  - intros _. exists ld. split; [left; reflexivity|lia].
  - intros H. destruct (IH H) as (x & I & L). exists x. auto.
Qed.
Lemma wait_kept iso res first later : p_code (wait_for_ack iso res first later) = NoError ->
  p_code res = NoError /\ p_base (wait_for_ack iso res first later) = p_base res.
Proof. unfold wait_for_ack. destruct iso; [|auto]. destruct (p_code res) eqn:E; auto; rewrite E; auto. Qed.

Lemma committed_visible c r L b o : config_ok c -> inv c r L -> In b L -> contains b o -> b_base b + records_len b <= get_hw r ->
  visible r b o.
Proof.
  intros CO I IN CT HW. destruct (inv_stores _ _ _ I) as ((_ & CH) & _).
  assert (get_log_start r <= o < get_leo r) as Ho.
  { apply in_split in IN as (x & y & ->). apply chain_split in CH as (m & C1 & C2). cbn [chain] in C2. destruct C2 as (Bm & _ & C2).
    apply chain_le in C1, C2. unfold contains in CT. lia. }
  split; [assumption|]. intros n Hn. destruct (read_committed c r L o n CO I Ho ltac:(unfold contains in CT; lia))
    as (pre & sel & rest & p & q & E & C1 & C2 & C3 & Q & (b0 & t & E0 & CT0) & RD & END).
  assert (b0 = b) as ->.
  { eapply (chain_unique _ _ _ _ _ _ CH); [|exact IN|exact CT0|exact CT]. rewrite E. apply in_or_app. right. rewrite E0. left. reflexivity. }
  rewrite RD. destruct sel as [|b' sel].
  - cbn in E0. subst rest. destruct END as [(END & _)|(b1 & t1 & E1 & CT1)]; [contradiction|]. inversion E1; subst. unfold contains in CT1. lia.
  - inversion E0; subst b'. exists (get_log_start r), (get_hw r), (get_leo r), (ztake (n - zlen (renc b)) (flat_map renc sel)).
    cbn [flat_map]. rewrite ztake_app_ge by assumption. reflexivity.
Qed.

Lemma number_covers l : forall s o, s <= o < s + total l -> exists b, In b (number s l) /\ contains b o.
Proof.
  induction l as [|b l IH]; intros s o Ho; cbn [total number] in *; [lia|]. pose proof (records_len_nonneg b).
  destruct (Z.lt_ge_cases o (s + records_len b)).
  - exists (with_base b s). split; [left; reflexivity|]. unfold contains. rewrite with_base_len. cbn [with_base b_base]. lia.
  - destruct (IH (s + records_len b) o ltac:(lia)) as (x & IN & CT). exists x. split; [right; assumption|assumption].
Qed.
Lemma number_within l : forall s b, In b (number s l) -> s <= b_base b /\ b_base b + records_len b <= s + total l.
Proof.
  induction l as [|b l IH]; intros s x IN; cbn [total number] in *; [contradiction|]. pose proof (records_len_nonneg b). pose proof (total_nonneg l).
  destruct IN as [<-|IN]; [rewrite with_base_len; cbn [with_base b_base]; lia|]. apply IH in IN. lia.
Qed.

Lemma committed_response c now pre dedup ld l l1 l2 ld1 res first later : config_ok c -> reached c (l_store ld) ->
  pre l = Some l1 -> 0 < total l1 -> dedup l1 = Some l2 -> 0 < total l2 -> Forall raw_batch_ok l2 -> room (l_store ld) l2 ->
  produce_partition c now pre dedup (Some ld) l = (Some ld1, res) ->
  (forall x, In x (later ++ match first with Some y => [y] | None => [] end) -> steps c anything (l_store ld1) (l_store x)) ->
  p_code (wait_for_ack ReadCommitted res first later) = NoError ->
  let base := p_base (wait_for_ack ReadCommitted res first later) in
  appended (l_store ld) (l_store ld1) base l2 /\
  exists x, (In x later \/ first = Some x) /\ base + total l2 <= get_hw (l_store x)
    /\ forall o, base <= o < base + total l2 -> get_log_start (l_store x) <= o ->
       exists b, In b (number base l2) /\ visible (l_store x) b o.
Proof.
  intros CO R P T D T2 OK RM H ST E base. destruct (wait_kept _ _ _ _ E) as (E1 & Eb). unfold base. rewrite Eb. clear base Eb.
  destruct (produce_ok _ _ _ _ _ _ _ _ _ _ P T D T2 H E1) as (ld1' & Eq & W & B & LEO). inversion Eq; subst ld1'; clear Eq.
  destruct (append_contiguous _ _ _ _ _ _ CO R OK RM W) as (A1 & A2 & A3 & _).
  split; [unfold appended; rewrite B; auto|].
  unfold wait_for_ack in E. rewrite E1 in E. cbn [p_code] in E. destruct first as [y|]; [|discriminate].
  destruct (wait_hw_ok _ _ E) as (x & IN & HW). exists x. split; [destruct IN as [->|IN]; auto|].
  rewrite LEO, A2 in HW. rewrite B. split; [assumption|]. intros o Ho LS.
  assert (steps c anything (l_store ld1) (l_store x)) as STx.
  { apply ST. apply in_or_app. destruct IN as [->|IN]; [right; left; reflexivity|left; assumption]. }
  destruct (reached_inv _ _ CO R) as (L & s & ls & act & EL & I).
  destruct (write_recordset_at _ _ _ _ _ _ _ _ _ _ CO I OK RM W) as (n & ls' & act' & I' & N & F & LEO' & -> & _). rewrite firstn_all in F.
  assert (inv c (l_store ld1) (L ++ number (get_leo (l_store ld)) l2)) as IV by (exists s, ls', act'; split; [subst L; symmetry; assumption|assumption]).
  destruct (steps_keep _ _ _ _ CO STx _ IV) as (L' & IV' & _ & _ & K).
  destruct (number_covers _ _ _ Ho) as (b & INb & CT). exists b. split; [assumption|].
  apply (committed_visible c _ L' b o CO IV'); [|assumption|].
  - eapply K; [apply in_or_app; right; exact INb|exact CT|assumption].
  - pose proof (number_within _ _ _ INb). lia.
Qed.

Lemma responses_in_order c iso pre dedup ts :
  map (fun x => fst (fst x)) (handle_request c iso pre dedup ts) = map t_index ts.
Proof.
  unfold handle_request. rewrite !map_map. apply map_ext. intros t.
  destruct (produce_partition c (t_now t) pre dedup (t_leader t) (t_records t)). reflexivity.
Qed.

(** * Findings *)
Definition as_is (l : list (batch bytes)) := Some l.
Definition led (isr : Z) (r : replica) : leader := mkLeader r isr (Some None).

Lemma timed_out_refuted : exists c ld l ld1 first, config_ok c /\ reached c (l_store ld) /\ Forall raw_batch_ok l /\ room (l_store ld) l
  /\ fst (produce_partition c 0 as_is as_is (Some ld) l) = Some ld1
  /\ p_code (wait_for_ack ReadCommitted (snd (produce_partition c 0 as_is as_is (Some ld) l)) first []) = RequestTimedOut
  /\ get_leo (l_store ld) < get_leo (l_store ld1) /\ log_bytes (l_store ld1) <> log_bytes (l_store ld).
Proof.
  exists demo_c, (led 2 demo_r), one. eexists. exists (Some (led 2 (fst (write_recordset demo_c 0 demo_r one false)))).
  split; [apply demo_c_ok|]. split; [apply demo_r_reached|]. split; [apply one_ok|]. split; [room_tac|].
  split; [vm_compute; reflexivity|]. split; [vm_compute; reflexivity|]. split; [vm_compute; reflexivity|]. vm_compute. discriminate.
Qed.
Lemma no_longer_leader_refuted : exists c ld l ld1, config_ok c /\ reached c (l_store ld) /\ Forall raw_batch_ok l /\ room (l_store ld) l
  /\ fst (produce_partition c 0 as_is as_is (Some ld) l) = Some ld1
  /\ p_code (wait_for_ack ReadCommitted (snd (produce_partition c 0 as_is as_is (Some ld) l)) None []) = NotLeaderForPartition
  /\ get_leo (l_store ld) < get_leo (l_store ld1).
Proof.
  exists demo_c, (led 2 demo_r), one. eexists.
  split; [apply demo_c_ok|]. split; [apply demo_r_reached|]. split; [apply one_ok|]. split; [room_tac|].
  split; [vm_compute; reflexivity|]. split; [vm_compute; reflexivity|]. vm_compute. reflexivity.
Qed.
Lemma storage_error_refuted : exists c ld l ld1, config_ok c /\ reached c (l_store ld) /\ Forall raw_batch_ok l /\ room (l_store ld) l
  /\ produce_partition c 0 as_is as_is (Some ld) l = (Some ld1, failed StorageErrorCode)
  /\ get_leo (l_store ld) < get_leo (l_store ld1).
Proof.
  exists above_c, (led 1 (fresh above_c 0)), [demo 2 3; demo 0 0]. eexists.
  split; [unfold config_ok, above_c; cbn; lia|]. split; [apply reached_fresh|].
  split; [repeat (constructor; [apply demo_ok; [closed_range|vm_compute; reflexivity]|]); constructor|].
  split; [room_tac|]. split; [vm_compute; reflexivity|]. vm_compute. reflexivity.
Qed.
Lemma deduplicated_refuted : exists c ld l res, config_ok c /\ reached c (l_store ld) /\ Forall raw_batch_ok l
  /\ produce_partition c 0 as_is (fun _ => Some []) (Some ld) l = (Some ld, res)
  /\ p_code res = NoError /\ p_base res = 6 /\ get_leo (l_store ld) = 12.
Proof.
  exists demo_c, (led 2 demo_r), one. eexists. split; [apply demo_c_ok|]. split; [apply demo_r_reached|]. split; [apply one_ok|].
  split; [reflexivity|]. vm_compute. auto.
Qed.
