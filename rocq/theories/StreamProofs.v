(** Proofs about consumer streams. *)
From Verif Require Import StorageSpec RecordSpec RecordProofs StorageProofs ReplicaProofs StorageClaims ClusterProofs ReplicationClaims ListFacts.
From Verif Require Import StreamModel StreamSpec.

(** * Batches between two offsets *)
Lemma bb_app s q A B : batches_between s q (A ++ B) = batches_between s q A ++ batches_between s q B.
Proof. apply filter_app. Qed.
Lemma bb_none_high a B e s q : chain a B e -> q <= a -> batches_between s q B = [].
Proof.
  revert a. induction B as [|b B IH]; intros a CH Q; [reflexivity|]. cbn [chain] in CH. destruct CH as (E & P & CH).
  unfold batches_between. cbn [filter]. unfold batch_end at 2. replace (b_base b + records_len b <=? q) with false by lia. rewrite andb_false_r.
  apply (IH (a + records_len b)); [assumption|lia].
Qed.
Lemma bb_none_low a B e s q : chain a B e -> e <= s -> batches_between s q B = [].
Proof.
  revert a. induction B as [|b B IH]; intros a CH Q; [reflexivity|]. cbn [chain] in CH. destruct CH as (E & P & CH). pose proof (chain_le _ _ _ CH).
  unfold batches_between. cbn [filter]. unfold batch_end at 1. replace (s <? b_base b + records_len b) with false by lia. cbn [andb].
  apply (IH (a + records_len b)); [assumption|lia].
Qed.
Lemma bb_all a B e s q : chain a B e -> (forall b t, B = b :: t -> s < batch_end b) -> e <= q -> batches_between s q B = B.
Proof.
  revert a. induction B as [|b B IH]; intros a CH F Q; [reflexivity|]. cbn [chain] in CH. destruct CH as (E & P & CH). pose proof (chain_le _ _ _ CH).
  pose proof (F b B eq_refl) as F0. unfold batches_between. cbn [filter]. unfold batch_end in *. replace (s <? b_base b + records_len b) with true by lia.
  replace (b_base b + records_len b <=? q) with true by lia. cbn [andb]. f_equal. apply (IH (a + records_len b)); [assumption| |lia].
  intros b' t ->. cbn [chain] in CH. unfold batch_end in *. lia.
Qed.
Lemma bb_join a B e s m q : chain a B e -> s <= m <= q -> batches_between s m B ++ batches_between m q B = batches_between s q B.
Proof.
  revert a. induction B as [|b B IH]; intros a CH Q; [reflexivity|]. cbn [chain] in CH. destruct CH as (E & P & CH).
  specialize (IH _ CH Q). unfold batches_between in *. cbn [filter]. unfold batch_end in *.
  destruct (Z.le_gt_cases (b_base b + records_len b) m).
  - replace (m <? b_base b + records_len b) with false by lia. cbn [andb]. replace (b_base b + records_len b <=? m) with true by lia.
    replace (b_base b + records_len b <=? q) with true by lia. destruct (s <? b_base b + records_len b); cbn [andb app]; [f_equal|]; assumption.
  - replace (b_base b + records_len b <=? m) with false by lia. replace (m <? b_base b + records_len b) with true by lia.
    replace (s <? b_base b + records_len b) with true by lia. cbn [andb].
    assert (filter (fun b0 => (s <? b_base b0 + records_len b0) && (b_base b0 + records_len b0 <=? m)) B = []) as E0 by (apply (bb_none_high _ _ _ s m CH); lia).
    rewrite E0 in *. cbn [app] in *. destruct (b_base b + records_len b <=? q); [f_equal|]; assumption.
Qed.
Lemma bb_nil_same s H q : s <= q -> (forall b, In b H -> s < batch_end b -> q < batch_end b) -> batches_between s q H = [].
Proof.
  intros _ F. induction H as [|b H IH]; [reflexivity|]. unfold batches_between in *. cbn [filter].
  destruct (s <? batch_end b) eqn:E; cbn [andb].
  - pose proof (F b (or_introl eq_refl) ltac:(lia)). replace (batch_end b <=? q) with false by lia. apply IH. intros x I. apply F. right. assumption.
  - apply IH. intros x I. apply F. right. assumption.
Qed.
Lemma bb_refl s H : batches_between s s H = [].
Proof. apply bb_nil_same; [lia|auto]. Qed.

(** * Storage steps *)
Lemma stored_unique l : forall s n m e, chain s (number s (firstn n l)) e -> chain s (number s (firstn m l)) e ->
  number s (firstn n l) = number s (firstn m l).
Proof.
  induction l as [|b l IH]; intros s n m e; [rewrite !firstn_nil; reflexivity|].
  destruct n as [|n], m as [|m]; cbn [firstn number chain]; [reflexivity| | |].
  - intros -> (_ & P & C). apply chain_le in C. rewrite with_base_len in *. lia.
  - intros (_ & P & C) ->. apply chain_le in C. rewrite with_base_len in *. lia.
  - rewrite with_base_len. intros (_ & P & C1) (_ & _ & C2). f_equal. eapply IH; eassumption.
Qed.

(** [H]: everything stored; [L]: what is still there. *)
Definition logged (c : config) (r : replica) (H : list (batch bytes)) : Prop :=
  exists old L, H = old ++ L /\ inv c r L /\ chain 0 old (get_log_start r) /\ get_hw r <= get_leo r /\ Forall honest H.

Lemma logged_chain c r H : logged c r H -> chain 0 H (get_leo r).
Proof. intros (old & L & -> & I & C & _). destruct (inv_stores _ _ _ I) as ((_ & CH) & _). eapply chain_app; eassumption. Qed.

Lemma honest_base b s : honest b -> honest (with_base b s).
Proof. intros (m & T & E). unfold to_memory in T. unfold honest, to_memory. destruct b as [bb bl h sc rs]. cbn [with_base b_recs b_base b_hdr] in *.
  destruct (memory_records rs) as [x|]; cbn [bind] in *; [|discriminate]. inversion T; subst. eexists. split; [reflexivity|]. exact E. Qed.
Lemma honest_number l : forall s, Forall honest l -> Forall honest (number s l).
Proof. induction l as [|b l IH]; intros s F; cbn [number]; [constructor|]. inversion F; subst. constructor; [apply honest_base; assumption|apply IH; assumption]. Qed.
Lemma Forall_firstn {A} (P : A -> Prop) n l : Forall P l -> Forall P (firstn n l).
Proof. intros F. rewrite <- (firstn_skipn n l) in F. apply Forall_app in F. tauto. Qed.

Lemma enforce_size_kept c r : get_hw (enforce_size c r) = get_hw r /\ get_leo (enforce_size c r) = get_leo r.
Proof. unfold enforce_size. match goal with |- context [if ?b then _ else _] => destruct b end; auto. Qed.
Lemma enforce_ttl_kept c now r : get_hw (enforce_ttl c now r) = get_hw r /\ get_leo (enforce_ttl c now r) = get_leo r.
Proof. unfold enforce_ttl. match goal with |- context [match ?b with [] => _ | _ :: _ => _ end] => destruct b end; auto. Qed.
Lemma logged_step c r H a r' new : config_ok c -> logged c r H -> op_ok c r a -> earlier r a -> exec c r a = Done r' -> stored_by a r r' new ->
  logged c r' (H ++ new) /\ get_leo r <= get_leo r' /\ get_log_start r <= get_log_start r'
  /\ (live r a -> get_hw r <= get_hw r').
Proof.
  intros CO (old & L & -> & I & C0 & HW & HO) OK EA EX (CN & ST).
  destruct (ReplicaProofs.step _ _ _ _ _ CO I OK EX) as (L' & I' & dropped & kept & new' & -> & -> & C1 & C2 & AD & _).
  assert (new' = new) as ->.
  { destruct a; cbn [added_by] in AD; try (subst; reflexivity); try contradiction. destruct AD as (n & ->). destruct ST as (m & ->). eapply stored_unique; eassumption. }
  assert (Forall honest new) as HN.
  { destruct a; try (subst; constructor). destruct ST as (n & ->). apply honest_number, Forall_firstn. exact EA. }
  assert (get_hw r' <= get_leo r' /\ (live r a -> get_hw r <= get_hw r')) as (A1 & A3).
  { pose proof (chain_le _ _ _ C2). destruct a as [now l upd|o| |now|now k|now b n k]; cbn [exec] in EX.
    - destruct OK as (OKl & R). injection EX as EX. subst r'. destruct (write_recordset c now r l upd) as [r1 res] eqn:W. cbn [fst] in *.
      destruct I as (s & ls & act & EI & IA). destruct (write_recordset_at _ _ _ _ _ _ _ _ _ _ CO IA OKl R W) as (n & ls' & act' & _ & _ & _ & _ & D).
      destruct res; [destruct D as (_ & D)|destruct D as (_ & D); destruct upd]; (split; [lia|intros _; lia]).
    - inversion EX; subst. cbn [earlier live] in EA. change (get_hw (update_hw r o)) with o. change (get_leo (update_hw r o)) with (get_leo r). lia.
    - inversion EX; subst. destruct (enforce_size_kept c r) as (-> & ->). (split; [lia|intros _; lia]).
    - inversion EX; subst. destruct (enforce_ttl_kept c now r) as (-> & ->). (split; [lia|intros _; lia]).
    - destruct I as (s & ls & act & EI & IA). destruct (restart_at c now s r ls act k CO IA) as (r1 & I1 & LEO & HW1 & SH & HWE & LD).
      rewrite LD in EX. destruct (_ <? _) in EX; inversion EX; subst. cbn [live]. split; [unfold get_hw in *; lia|tauto].
    - contradiction. }
  split; [|split; [apply chain_le in C2; assumption|split; [apply chain_le in C1; assumption|assumption]]].
  exists (old ++ dropped), (kept ++ new). split; [rewrite !app_assoc; reflexivity|]. split; [assumption|].
  split; [eapply chain_app; eassumption|]. split; [assumption|]. rewrite !Forall_app in *. tauto.
Qed.
Lemma hist_logged c r H : config_ok c -> hist c r H -> logged c r H.
Proof.
  intros CO HI. induction HI as [now|r H a r' new HI IH OK EA EX ST].
  - exists [], []. split; [reflexivity|]. split; [apply fresh_inv; assumption|]. split; [reflexivity|]. cbn. split; [lia|constructor].
  - apply (logged_step c r H a r' new CO IH OK EA EX ST).
Qed.

(** * Reads *)
Lemma chain_in a A e b : chain a A e -> In b A -> a <= b_base b /\ b_base b < batch_end b /\ batch_end b <= e.
Proof.
  revert a. induction A as [|x A IH]; intros a CH IN; [contradiction|]. cbn [chain] in CH. destruct CH as (E & P & CH).
  destruct IN as [->|IN]; [apply chain_le in CH; unfold batch_end; lia|]. apply (IH _ CH) in IN. lia.
Qed.
Lemma first_end b o : contains b o -> o < batch_end b.
Proof. unfold contains, batch_end. lia. Qed.

Lemma encs_part pos q e H : chain 0 H e -> pos <= q <= e -> zlen (encs (batches_between pos q H)) <= zlen (encs (batches_between pos e H)).
Proof.
  intros CH Q. rewrite <- (bb_join _ _ _ pos q e CH) by lia. unfold encs. rewrite flat_map_app, zlen_app. match goal with |- _ <= _ + ?x => assert (0 <= x) by apply zlen_nonneg end. lia.
Qed.
Lemma read_slice c r H iso n pos : config_ok c -> logged c r H -> get_log_start r <= pos <= log_limit iso r -> (c_seg_max c <= n \/ zlen (encs (batches_between pos (get_leo r) H)) <= n) ->
  exists q sl p', read_partition_slice r pos n iso = Done sl /\ slice_end iso sl = log_limit iso r
    /\ match sl_bytes sl with Some b => b | None => [] end = encs (batches_between pos q H)
    /\ pos <= q <= log_limit iso r
    /\ (batches_between pos q H <> [] -> chain p' (batches_between pos q H) q /\ p' <= pos < q)
    /\ (batches_between pos q H = [] -> forall b, In b H -> pos < batch_end b -> log_limit iso r < batch_end b)
    /\ zlen (encs (batches_between pos q H)) <= c_seg_max c
    /\ Forall raw_batch_ok (batches_between pos q H)
    /\ (m_base (r_active r) <= pos -> batches_between q (log_limit iso r) H = []).
Proof.
  intros CO LG Ho N. pose proof (logged_chain _ _ _ LG) as CH0. destruct LG as (old & L & -> & I & C0 & HW & HO).
  destruct (inv_stores _ _ _ I) as ((_ & CH) & OKL).
  assert (log_limit iso r <= get_leo r) as LL by (destruct iso; cbn; lia).
  assert (forall q, pos <= q -> batches_between pos q (old ++ L) = batches_between pos q L) as OLD.
  { intros q _. rewrite bb_app, (bb_none_low _ _ _ pos q C0) by lia. reflexivity. }
  assert (0 < c_seg_max c) as SM by (destruct CO; lia).
  assert (0 <= n) as N0 by (destruct N as [N|N]; [lia|pose proof (zlen_nonneg (encs (batches_between pos (get_leo r) (old ++ L)))); lia]).
  assert (forall q, pos <= q <= get_leo r -> zlen (encs (batches_between pos q (old ++ L))) <= c_seg_max c -> zlen (encs (batches_between pos q (old ++ L))) <= n) as FIT.
  { intros q Q S. destruct N as [N|N]; [lia|]. pose proof (encs_part pos q _ _ CH0 Q). lia. }
  destruct (Z.eq_dec pos (get_leo r)) as [->|NE].
  { assert (log_limit iso r = get_leo r) as EL by lia.
    exists (get_leo r). eexists. exists 0. split; [apply (read_at_end _ _ _ n iso I)|]. rewrite bb_refl.
    split; [rewrite EL; destruct iso; cbn in *; congruence|]. split; [reflexivity|]. split; [lia|]. split; [congruence|].
    split; [intros _ b IN B; pose proof (chain_in _ _ _ _ CH0 IN); lia|]. split; [cbn; unfold zlen; cbn; lia|]. split; [constructor|].
    intros _. rewrite EL. apply bb_refl. }
  destruct iso; cbn [log_limit] in *.
  - destruct (read_committed_full c r L pos n CO I ltac:(lia) ltac:(lia)) as (pre & sel & rest & p' & q & E & C1 & C2 & C3 & Q & (b0 & t0 & E0 & CT0) & RD & D & SZ & ONE).
    assert (p' = b_base b0) as EP.
    { pose proof (chain_app _ _ _ _ _ C2 C3) as C23. rewrite E0 in C23. cbn [chain] in C23. destruct C23. congruence. }
    assert (p' <= pos < batch_end b0) as PP by (unfold contains, batch_end in *; lia).
    assert (Forall raw_batch_ok sel) as OKs by (rewrite E, !Forall_app in OKL; tauto).
    destruct sel as [|b1 sel].
    + cbn in C2, E0. subst rest q. destruct D as [(D & _)|(b & t & Eb & CTb)]; [contradiction|]. inversion Eb; subst b t.
      assert (forall b, In b L -> pos < batch_end b -> get_hw r < batch_end b) as ALL.
      { intros b IN Hb. rewrite E in IN. cbn [app] in IN. apply in_app_or in IN as [IN|IN]; [apply (chain_in _ _ _ _ C1) in IN; lia|].
        destruct IN as [<-|IN]; [apply first_end; assumption|]. cbn [chain] in C3. destruct C3 as (_ & _ & C3). apply (chain_in _ _ _ _ C3) in IN. apply first_end in CTb. unfold batch_end in *. lia. }
      exists pos. eexists. exists 0. split; [exact RD|]. cbn [slice_end sl_hw sl_bytes]. split; [reflexivity|]. rewrite bb_refl.
      split; [apply ztake_all; change (flat_map renc []) with (@nil Z); unfold zlen; cbn; lia|]. split; [lia|]. split; [congruence|]. split.
      { intros _ b IN Hb. apply in_app_or in IN as [IN|IN]; [apply (chain_in _ _ _ _ C0) in IN; lia|]. apply ALL; assumption. }
      split; [assumption|]. split; [constructor|]. intros _. rewrite OLD by lia. apply bb_nil_same; [lia|]. assumption.
    + assert (pos < q) as PQ. { inversion E0; subst b1. cbn [chain] in C2. destruct C2 as (_ & _ & C2). apply chain_le in C2. unfold batch_end in *. lia. }
      assert (batches_between pos q (old ++ L) = b1 :: sel) as SEL.
      { rewrite OLD by lia. rewrite E, !bb_app. rewrite (bb_none_low _ _ _ pos q C1) by lia. rewrite (bb_none_high _ _ _ pos q C3) by lia.
        rewrite app_nil_r. cbn [app]. eapply bb_all; [exact C2| |lia]. intros b t Eb. inversion Eb; subst. inversion E0; subst. lia. }
      exists q. eexists. exists p'. split; [exact RD|]. cbn [slice_end sl_hw sl_bytes]. split; [reflexivity|]. rewrite SEL.
      split; [apply ztake_all; rewrite <- SEL; apply FIT; [lia|rewrite SEL; assumption]|]. split; [lia|]. split; [intros _; split; [assumption|lia]|]. split; [intros X; discriminate X|]. split; [assumption|]. split; [assumption|].
      intros A. rewrite E, !bb_app, (bb_none_low _ _ _ q _ C0) by lia. rewrite (bb_none_low _ _ _ q _ C1) by lia. rewrite (bb_none_low _ _ _ q _ C2) by lia. cbn [app].
      destruct (ONE A) as [->|(b & t & -> & CTb)]; [reflexivity|].
      cbn [chain] in C3. destruct C3 as (E3 & P3 & C3). unfold batches_between. cbn [filter]. pose proof (first_end _ _ CTb).
      replace (batch_end b <=? get_hw r) with false by lia. rewrite andb_false_r. apply (bb_none_high _ _ _ q _ C3). unfold batch_end in *. lia.
  - destruct (read_uncommitted_full c r L pos n CO I ltac:(lia)) as (pre & b & post & rest & E & CT & RD & D & SZ & ONE).
    rewrite E in CH. apply chain_split in CH as (p' & C1 & C23). apply chain_split in C23 as (q & C2 & C3). pose proof (chain_le _ _ _ C3).
    assert (p' = b_base b) as EP by (cbn [chain] in C2; destruct C2; congruence).
    assert (p' <= pos < batch_end b) as PP by (unfold contains, batch_end in *; lia).
    assert (Forall raw_batch_ok (b :: post)) as OKs by (rewrite E, !Forall_app in OKL; tauto).
    assert (pos < q) as PQ. { pose proof C2 as C2'. cbn [chain] in C2'. destruct C2' as (_ & _ & C2'). apply chain_le in C2'. unfold batch_end in *. lia. }
    assert (batches_between pos q (old ++ L) = b :: post) as SEL.
    { rewrite OLD by lia. rewrite E, !bb_app. rewrite (bb_none_low _ _ _ pos q C1) by lia. rewrite (bb_none_high _ _ _ pos q C3) by lia.
      rewrite app_nil_r. cbn [app]. eapply bb_all; [exact C2| |lia]. intros b' t Eb. inversion Eb; subst. lia. }
    exists q. eexists. exists p'. split; [exact RD|]. cbn [slice_end sl_leo sl_bytes]. split; [reflexivity|]. rewrite SEL.
    split; [apply ztake_all; rewrite <- SEL; apply FIT; [lia|rewrite SEL; assumption]|]. split; [lia|]. split; [intros _; split; [assumption|lia]|]. split; [intros X; discriminate X|]. split; [assumption|]. split; [assumption|].
    intros A. rewrite E, !bb_app, (bb_none_low _ _ _ q _ C0) by lia. rewrite (bb_none_low _ _ _ q _ C1) by lia. rewrite (bb_none_low _ _ _ q _ C2) by lia. cbn [app].
    rewrite (ONE A). reflexivity.
Qed.

(** * The protocol *)
Section Protocol.
  Context (c : config) (p : params) (s : Z) (CO : config_ok c) (S0 : 0 <= s).
  (** what was delivered for which batches *)
  Variable Out : list item -> list (batch bytes) -> Prop.
  Hypothesis Out0 : Out [] [].
  Variable Dom : replica -> list (batch bytes) -> Prop.
  Hypothesis Dom_back : forall r H a r' new, logged c r H -> op_ok c r a -> live r a -> exec c r a = Done r' -> stored_by a r r' new ->
    Dom r' (H ++ new) -> Dom r H.
  Notation lim r := (log_limit (p_iso p) r).
  Definition caught_up (H : list (batch bytes)) (pos e : Z) : Prop := forall b, In b H -> pos < batch_end b -> e < batch_end b.
  Hypothesis sends : forall r H pos, logged c r H -> Dom r H -> get_log_start r <= pos <= lim r -> s <= pos ->
    (send_back p r pos = Some (pos, false, None) /\ caught_up H pos (lim r))
    \/ (send_back p r pos = Some (lim r, false, None)
        /\ forall o B, Out o B -> B = batches_between s pos H -> Out o (B ++ batches_between pos (lim r) H))
    \/ (exists x q, send_back p r pos = Some (lim r, true, Some x) /\ pos < q <= lim r /\ next_offset_for_fetch x = Some q
        /\ forall o B, Out o B -> B = batches_between s pos H -> Out (o ++ items s x) (B ++ batches_between pos q H)).

  Inductive phase (y : sys) (H : list (batch bytes)) : Prop :=
    | ph_send pos : y_pc y = Sending pos -> y_net y = [] -> y_acks y = [] -> Out (y_out y) (batches_between s pos H) ->
        s <= pos <= lim (y_store y) -> y_ack_seen y <= pos -> (y_pub y = y_ack_seen y \/ y_pub y = -1) -> phase y H
    | ph_idle pos : y_pc y = Waiting -> y_known y = Some pos -> y_net y = [] -> y_acks y = [] -> Out (y_out y) (batches_between s pos H) ->
        s <= pos <= lim (y_store y) -> y_ack_seen y <= pos -> (y_pub y = y_ack_seen y \/ y_pub y = -1) -> caught_up H pos (y_end_seen y) -> phase y H
    | ph_sent pos q x : y_pc y = Waiting -> y_known y = None -> y_net y = [x] -> y_acks y = [] -> next_offset_for_fetch x = Some q ->
        s <= pos -> pos < q <= lim (y_store y) -> y_ack_seen y < q -> (y_pub y = y_ack_seen y \/ y_pub y = -1) -> y_end_seen y <= y_last y ->
        Out (y_out y) (batches_between s pos H) -> Out (y_out y ++ items s x) (batches_between s q H) -> phase y H
    | ph_acked q : y_pc y = Waiting -> y_known y = None -> y_net y = [] -> y_acks y = [q] -> Out (y_out y) (batches_between s q H) ->
        s <= q <= lim (y_store y) -> y_ack_seen y < q -> (y_pub y = y_ack_seen y \/ y_pub y = -1) -> y_end_seen y <= y_last y -> phase y H
    | ph_pub q : y_pc y = Waiting -> y_known y = None -> y_net y = [] -> y_acks y = [] -> y_pub y = q -> Out (y_out y) (batches_between s q H) ->
        s <= q <= lim (y_store y) -> y_ack_seen y < q -> y_end_seen y <= y_last y -> phase y H
    | ph_ending pos : y_pc y = Ended -> y_net y = [Failure] -> y_acks y = [] -> Out (y_out y) (batches_between s pos H) -> s <= pos <= lim (y_store y) -> pos < get_log_start (y_store y) -> phase y H
    | ph_ended pos o : y_pc y = Ended -> y_net y = [] -> y_acks y = [] -> y_out y = o ++ [ErrItem] -> Out o (batches_between s pos H) -> s <= pos <= lim (y_store y) -> pos < get_log_start (y_store y) -> phase y H.

  Definition J (y : sys) (H : list (batch bytes)) : Prop :=
    logged c (y_store y) H /\ y_end_seen y <= lim (y_store y) /\ phase y H.

  Lemma lim_mono r H a r' new : logged c r H -> op_ok c r a -> live r a -> exec c r a = Done r' -> stored_by a r r' new -> lim r <= lim r'.
  Proof.
    intros LG OK LV EX ST. destruct (logged_step c r H a r' new CO LG OK ltac:(destruct a; cbn in *; auto) EX ST) as (_ & A & _ & B).
    destruct (p_iso p); cbn; auto.
  Qed.
  Lemma lim_leo r H : logged c r H -> lim r <= get_leo r.
  Proof. intros (old & L & _ & _ & _ & HW & _). destruct (p_iso p); cbn; lia. Qed.

  Lemma J_store y H a r' new : J y H -> op_ok c (y_store y) a -> live (y_store y) a -> exec c (y_store y) a = Done r' -> stored_by a (y_store y) r' new ->
    J (set_store y r') (H ++ new).
  Proof.
    intros (LG & EN & PH) OK LV EX ST. pose proof (lim_mono _ _ _ _ _ LG OK LV EX ST) as LM. pose proof (lim_leo _ _ LG) as LL.
    destruct (logged_step c _ H a r' new CO LG OK ltac:(destruct a; cbn in *; auto) EX ST) as (LG' & _ & LS & _).
    split; [exact LG'|]. split; [cbn; lia|].
    assert (forall q, q <= lim (y_store y) -> batches_between s q (H ++ new) = batches_between s q H) as BB.
    { intros q Q. rewrite bb_app. destruct ST as (CN & _). rewrite (bb_none_high _ _ _ s q CN) by lia. apply app_nil_r. }
    destruct PH as [pos E1 E2 E3 E4 E5 E6 E7|pos E1 E2 E3 E4 E5 E6 E7 E8 E9|pos q x E1 E2 E3 E4 E5 E6 E7 E8 E9 E10 E11 E12|q E1 E2 E3 E4 E5 E6 E7 E8 E9|q E1 E2 E3 E4 E5 E6 E7 E8 E9|pos E1 E2 E3 E4 E5 E6|pos o E1 E2 E3 E4 E5 E6 E7].
    - apply (ph_send _ _ pos); cbn; auto; [rewrite BB by lia; assumption|lia].
    - apply (ph_idle _ _ pos); cbn; auto; [rewrite BB by lia; assumption|lia|].
      intros b IN Hb. apply in_app_or in IN as [IN|IN]; [apply E9; assumption|]. destruct ST as (CN & _). apply (chain_in _ _ _ _ CN) in IN. lia.
    - apply (ph_sent _ _ pos q x); cbn; auto; [lia|rewrite BB by lia; assumption|rewrite BB by lia; assumption].
    - apply (ph_acked _ _ q); cbn; auto; [rewrite BB by lia; assumption|lia].
    - apply (ph_pub _ _ q); cbn; auto; [rewrite BB by lia; assumption|lia].
    - apply (ph_ending _ _ pos); cbn; auto; [rewrite BB by lia; assumption|lia|lia].
    - apply (ph_ended _ _ pos o); cbn; auto; [rewrite BB by lia; assumption|lia|lia].
  Qed.

  Lemma J_send y H start : J y H -> Dom (y_store y) H -> y_pc y = Sending start -> J (do_send p y start) H.
  Proof.
    intros (LG & EN & PH) DM PC. destruct PH as [pos E1 E2 E3 E4 E5 E6 E7|pos E1|pos q x E1|q E1|q E1|pos E1|pos o E1]; try congruence.
    assert (start = pos) as -> by congruence. clear PC. unfold do_send.
    pose proof (logged_chain _ _ _ LG) as CH.
    destruct (Z.lt_ge_cases pos (get_log_start (y_store y))) as [LT|GE].
    - assert (send_back p (y_store y) pos = None) as ->.
      { unfold send_back. destruct LG as (old & L & _ & I & _). rewrite (read_below c _ L pos _ _ I LT). reflexivity. }
      split; [exact LG|]. split; [exact EN|]. apply (ph_ending _ _ pos); cbn; auto. rewrite E2. reflexivity.
    - destruct (sends _ H pos LG DM ltac:(lia) ltac:(lia)) as [(-> & CU)|[(-> & OO)|(x & q & -> & Q & NX & OO)]].
      + split; [exact LG|]. split; [exact EN|]. apply (ph_idle _ _ pos); cbn; auto; [rewrite E2; reflexivity|].
        intros b IN Hb. specialize (CU b IN Hb). lia.
      + split; [exact LG|]. split; [exact EN|]. apply (ph_idle _ _ (lim (y_store y))); cbn; auto; [rewrite E2; reflexivity| |lia|lia|].
        * rewrite <- (bb_join _ _ _ s pos _ CH) by lia. apply OO; auto.
        * intros b IN Hb. lia.
      + split; [exact LG|]. split; [exact EN|]. apply (ph_sent _ _ pos q x); cbn; auto; [rewrite E2; reflexivity|lia|lia|].
        rewrite <- (bb_join _ _ _ s pos q CH) by lia. apply OO; auto.
  Qed.

  Lemma J_ack y H : J y H -> y_pc y = Waiting -> y_pub y <> y_ack_seen y -> J (on_ack y) H.
  Proof.
    intros (LG & EN & PH) PC NE. unfold on_ack.
    destruct PH as [pos E1 E2 E3 E4 E5 E6 E7|pos E1 E2 E3 E4 E5 E6 E7 E8 E9|pos q x E1 E2 E3 E4 E5 E6 E7 E8 E9 E10 E11 E12|q E1 E2 E3 E4 E5 E6 E7 E8 E9|q E1 E2 E3 E4 E5 E6 E7 E8 E9|pos E1|pos o E1]; try congruence.
    - destruct E8 as [E8|E8]; [contradiction|]. rewrite E8. cbn. split; [exact LG|]. split; [exact EN|]. apply (ph_idle _ _ pos); cbn; auto; lia.
    - destruct E9 as [E9|E9]; [contradiction|]. rewrite E9. cbn. split; [exact LG|]. split; [exact EN|]. apply (ph_sent _ _ pos q x); cbn; auto; lia.
    - destruct E8 as [E8|E8]; [contradiction|]. rewrite E8. cbn. split; [exact LG|]. split; [exact EN|]. apply (ph_acked _ _ q); cbn; auto; lia.
    - rewrite E5. replace (q =? -1) with false by lia. destruct (y_last y <=? q) eqn:LQ.
      + split; [exact LG|]. split; [exact EN|]. apply (ph_idle _ _ q); cbn; auto; [lia|]. intros b _ Hb. lia.
      + split; [exact LG|]. split; [exact EN|]. apply (ph_send _ _ q); cbn; auto. lia.
  Qed.

  Lemma J_end y H : J y H -> y_pc y = Waiting -> lim (y_store y) <> y_end_seen y -> J (on_end p y) H.
  Proof.
    intros (LG & EN & PH) PC NE. unfold on_end.
    destruct PH as [pos E1 E2 E3 E4 E5 E6 E7|pos E1 E2 E3 E4 E5 E6 E7 E8 E9|pos q x E1 E2 E3 E4 E5 E6 E7 E8 E9 E10 E11 E12|q E1 E2 E3 E4 E5 E6 E7 E8 E9|q E1 E2 E3 E4 E5 E6 E7 E8 E9|pos E1|pos o E1]; try congruence; rewrite E2.
    - destruct (lim (y_store y) <=? pos) eqn:LP.
      + split; [exact LG|]. split; [cbn; lia|]. apply (ph_idle _ _ pos); cbn; auto. intros b _ Hb. lia.
      + split; [exact LG|]. split; [cbn; lia|]. apply (ph_send _ _ pos); cbn; auto.
    - split; [exact LG|]. split; [cbn; lia|]. apply (ph_sent _ _ pos q x); cbn; auto; lia.
    - split; [exact LG|]. split; [cbn; lia|]. apply (ph_acked _ _ q); cbn; auto; lia.
    - split; [exact LG|]. split; [cbn; lia|]. apply (ph_pub _ _ q); cbn; auto; lia.
  Qed.

  Lemma J_reply y H : J y H -> y_net y <> [] -> J (on_reply s y) H.
  Proof.
    intros (LG & EN & PH) NE. unfold on_reply.
    destruct PH as [pos E1 E2 E3 E4 E5 E6 E7|pos E1 E2 E3 E4 E5 E6 E7 E8 E9|pos q x E1 E2 E3 E4 E5 E6 E7 E8 E9 E10 E11 E12|q E1 E2 E3 E4 E5 E6 E7 E8 E9|q E1 E2 E3 E4 E5 E6 E7 E8 E9|pos E1 E2 E3 E4 E5|pos o E1 E2]; try congruence.
    - rewrite E3, E5, E4. split; [exact LG|]. split; [exact EN|]. apply (ph_acked _ _ q); cbn; auto; lia.
    - rewrite E2, E3. split; [exact LG|]. split; [exact EN|]. apply (ph_ended _ _ pos (y_out y)); cbn; auto.
  Qed.
  Lemma J_update y H : J y H -> y_acks y <> [] -> J (on_update y) H.
  Proof.
    intros (LG & EN & PH) NE. unfold on_update.
    destruct PH as [pos E1 E2 E3 E4 E5 E6 E7|pos E1 E2 E3 E4 E5 E6 E7 E8 E9|pos q x E1 E2 E3 E4 E5 E6 E7 E8 E9 E10 E11 E12|q E1 E2 E3 E4 E5 E6 E7 E8 E9|q E1 E2 E3 E4 E5 E6 E7 E8 E9|pos E1 E2 E3 E4 E5|pos o E1 E2]; try congruence.
    rewrite E4. split; [exact LG|]. split; [exact EN|]. apply (ph_pub _ _ q); cbn; auto.
  Qed.

  Lemma moves_store y y' : moves p s y y' -> y_store y' = y_store y.
  Proof.
    clear CO S0 Out0 Dom_back sends Dom.
    intros MV. destruct MV; unfold do_send, on_ack, on_end, on_reply, on_update.
    - destruct (send_back p (y_store y) start) as [[[o w] x]|]; reflexivity.
    - cbv zeta. destruct (y_pub y =? -1); [reflexivity|]. destruct (y_last y <=? y_pub y); reflexivity.
    - destruct (y_known y) as [k|]; [|reflexivity]. cbv zeta. destruct (lim (y_store y) <=? k); reflexivity.
    - destruct (y_net y); reflexivity.
    - destruct (y_acks y); reflexivity.
  Qed.
  Lemma run_logged r0 H0 H y : logged c r0 H0 -> run c p s r0 H0 H y -> logged c (y_store y) H.
  Proof.
    intros LG RN. induction RN as [|H y y' RN IH MV|H y a r' new RN IH OK LV EX ST]; [exact LG|rewrite (moves_store _ _ MV); exact IH|].
    exact (proj1 (logged_step c _ H a r' new CO IH OK ltac:(destruct a; cbn in *; auto) EX ST)).
  Qed.
  Lemma J_run r0 H0 H y : logged c r0 H0 -> s <= lim r0 -> run c p s r0 H0 H y -> Dom (y_store y) H -> J y H.
  Proof.
    intros LG SL RN. induction RN as [|H y y' RN IH MV|H y a r' new RN IH OK LV EX ST]; intros DM.
    - split; [exact LG|]. split; [cbn; lia|]. apply (ph_send _ _ s); cbn; auto; [rewrite bb_refl; exact Out0|lia].
    - pose proof (moves_store _ _ MV) as ES.
      rewrite ES in DM. specialize (IH DM). destruct MV as [y st PC|y PC NE|y PC NE|y NE|y NE].
      + apply J_send; assumption.
      + apply J_ack; assumption.
      + apply J_end; assumption.
      + apply J_reply; assumption.
      + apply J_update; assumption.
    - apply J_store with (a := a); auto. apply IH. apply (Dom_back _ _ a r' new); auto. exact (run_logged _ _ _ _ LG RN).
  Qed.

  Lemma J_given y H : J y H -> exists pos o e, y_out y = o ++ e /\ Out o (batches_between s pos H) /\ s <= pos <= lim (y_store y)
    /\ (e = [] \/ e = [ErrItem] /\ y_pc y = Ended /\ pos < get_log_start (y_store y)).
  Proof.
    clear CO S0 Out0 Dom_back sends Dom.
    intros (_ & _ & PH).
    destruct PH as [pos E1 E2 E3 E4 E5 E6 E7|pos E1 E2 E3 E4 E5 E6 E7 E8 E9|pos q x E1 E2 E3 E4 E5 E6 E7 E8 E9 E10 E11 E12|q E1 E2 E3 E4 E5 E6 E7 E8 E9|q E1 E2 E3 E4 E5 E6 E7 E8 E9|pos E1 E2 E3 E4 E5 E6|pos o E1 E2 E3 E4 E5 E6 E7].
    1-3,6: exists pos, (y_out y), []; rewrite app_nil_r; repeat split; auto; lia.
    1-2: exists q, (y_out y), []; rewrite app_nil_r; repeat split; auto; lia.
    exists pos, o, [ErrItem]. repeat split; auto; lia.
  Qed.
  Lemma J_quiet y H : J y H -> quiet p y -> exists pos, Out (y_out y) (batches_between s pos H) /\ s <= pos <= lim (y_store y) /\ caught_up H pos (lim (y_store y)).
  Proof.
    clear CO S0 Out0 Dom_back sends Dom.
    intros (_ & _ & PH) (Q1 & Q2 & Q3 & Q4 & Q5).
    destruct PH as [pos E1|pos E1 E2 E3 E4 E5 E6 E7 E8 E9|pos q x E1 E2 E3|q E1 E2 E3 E4|q E1 E2 E3 E4 E5 E6 E7 E8 E9|pos E1 E2|pos o E1 E2]; try congruence.
    - exists pos. rewrite Q3. repeat split; auto; lia.
    - lia.
  Qed.
  (** every move makes this smaller *)
  Definition todo (y : sys) : Z :=
    let L := lim (y_store y) in
    let a := if y_pub y =? y_ack_seen y then 0 else 1 in
    let e := if L =? y_end_seen y then 0 else 6 in
    match y_pc y with
    | Sending pos => 10 * (L - pos) + 5 + a + e
    | Ended => zlen (y_net y)
    | Waiting =>
        match y_known y, y_net y, y_acks y with
        | Some pos, _, _ => 10 * (L - pos) + a + e
        | None, x :: _, _ => match next_offset_for_fetch x with Some q => 10 * (L - q) + 9 + a + e | None => 0 end
        | None, [], q :: _ => 10 * (L - q) + 8 + a + e
        | None, [], [] => 10 * (L - y_pub y) + 6 + a + e
        end
    end.
  Lemma todo_pos y H : J y H -> 0 <= todo y.
  Proof.
    intros (_ & EN & PH). unfold todo. cbv zeta.
    destruct PH as [pos E1 E2 E3 E4 E5 E6 E7|pos E1 E2 E3 E4 E5 E6 E7 E8 E9|pos q x E1 E2 E3 E4 E5 E6 E7 E8 E9 E10 E11 E12|q E1 E2 E3 E4 E5 E6 E7 E8 E9|q E1 E2 E3 E4 E5 E6 E7 E8 E9|pos E1 E2 E3 E4 E5 E6|pos o E1 E2 E3 E4 E5 E6 E7];
      rewrite E1; rewrite ?E2, ?E3, ?E4, ?E5; try apply zlen_nonneg; repeat match goal with |- context [if ?b then _ else _] => destruct b end; lia.
  Qed.
  Lemma todo_less y y' H : J y H -> Dom (y_store y) H -> moves p s y y' -> todo y' < todo y.
  Proof.
    intros (LG & EN & PH) DM MV.
    destruct MV as [y st PC|y PC NE|y PC NE|y NE|y NE].
    - destruct PH as [pos E1 E2 E3 E4 E5 E6 E7|pos E1|pos q x E1|q E1|q E1|pos E1|pos o E1]; try congruence.
      assert (st = pos) as -> by congruence. clear PC. unfold do_send.
      destruct (Z.lt_ge_cases pos (get_log_start (y_store y))) as [LT|GE].
      + assert (send_back p (y_store y) pos = None) as ->.
        { unfold send_back. destruct LG as (old & L & _ & I & _). rewrite (read_below c _ L pos _ _ I LT). reflexivity. }
        unfold todo; cbv zeta; cbn [y_store y_pc y_last y_known y_pub y_ack_seen y_end_seen y_net y_acks]. rewrite E1, E2. cbn [app]. unfold zlen. cbn [length].
        destruct (_ =? _), (_ =? _); lia.
      + destruct (sends _ H pos LG DM ltac:(lia) ltac:(lia)) as [(-> & CU)|[(-> & OO)|(x & q & -> & Q & NX & OO)]];
          unfold todo; cbv zeta; cbn [y_store y_pc y_last y_known y_pub y_ack_seen y_end_seen y_net y_acks]; rewrite E1; rewrite ?E2; cbn [app]; rewrite ?NX; destruct (_ =? _), (_ =? _); lia.
    - destruct PH as [pos E1 E2 E3 E4 E5 E6 E7|pos E1 E2 E3 E4 E5 E6 E7 E8 E9|pos q x E1 E2 E3 E4 E5 E6 E7 E8 E9 E10 E11 E12|q E1 E2 E3 E4 E5 E6 E7 E8 E9|q E1 E2 E3 E4 E5 E6 E7 E8 E9|pos E1|pos o E1]; try congruence;
        unfold on_ack; cbv zeta; [destruct E8 as [E8|E8]; [contradiction|]|destruct E9 as [E9|E9]; [contradiction|]|destruct E8 as [E8|E8]; [contradiction|]|].
      1-3: replace (y_pub y =? -1) with true by lia; unfold todo; cbv zeta; cbn [y_store y_pc y_last y_known y_pub y_ack_seen y_end_seen y_net y_acks];
        rewrite E1, E2; rewrite ?E3, ?E4, ?E5; rewrite Z.eqb_refl; replace (y_pub y =? y_ack_seen y) with false by lia; lia.
      replace (y_pub y =? -1) with false by lia.
      destruct (y_last y <=? y_pub y); unfold todo; cbv zeta; cbn [y_store y_pc y_last y_known y_pub y_ack_seen y_end_seen y_net y_acks];
        rewrite E1, E2; rewrite ?E3, ?E4; rewrite Z.eqb_refl; replace (y_pub y =? y_ack_seen y) with false by lia; lia.
    - destruct PH as [pos E1 E2 E3 E4 E5 E6 E7|pos E1 E2 E3 E4 E5 E6 E7 E8 E9|pos q x E1 E2 E3 E4 E5 E6 E7 E8 E9 E10 E11 E12|q E1 E2 E3 E4 E5 E6 E7 E8 E9|q E1 E2 E3 E4 E5 E6 E7 E8 E9|pos E1|pos o E1]; try congruence;
        unfold on_end; cbv zeta; rewrite E2.
      1: destruct (lim (y_store y) <=? pos).
      all: unfold todo; cbv zeta; cbn [y_store y_pc y_last y_known y_pub y_ack_seen y_end_seen y_net y_acks];
        rewrite E1, E2; rewrite ?E3, ?E4, ?E5; rewrite Z.eqb_refl; replace (lim (y_store y) =? y_end_seen y) with false by lia; lia.
    - destruct PH as [pos E1 E2 E3 E4 E5 E6 E7|pos E1 E2 E3 E4 E5 E6 E7 E8 E9|pos q x E1 E2 E3 E4 E5 E6 E7 E8 E9 E10 E11 E12|q E1 E2 E3 E4 E5 E6 E7 E8 E9|q E1 E2 E3 E4 E5 E6 E7 E8 E9|pos E1 E2 E3 E4 E5|pos o E1 E2]; try congruence; unfold on_reply; rewrite ?E3, ?E2; try congruence.
      + rewrite E5, E4. unfold todo; cbv zeta; cbn [y_store y_pc y_last y_known y_pub y_ack_seen y_end_seen y_net y_acks app]. rewrite E1, E2, E3, E5. lia.
      + unfold todo; cbv zeta; cbn [y_store y_pc y_last y_known y_pub y_ack_seen y_end_seen y_net y_acks app]. rewrite E1, E2. unfold zlen; cbn [length]. lia.
    - destruct PH as [pos E1 E2 E3 E4 E5 E6 E7|pos E1 E2 E3 E4 E5 E6 E7 E8 E9|pos q x E1 E2 E3 E4 E5 E6 E7 E8 E9 E10 E11 E12|q E1 E2 E3 E4 E5 E6 E7 E8 E9|q E1 E2 E3 E4 E5 E6 E7 E8 E9|pos E1 E2 E3 E4 E5|pos o E1 E2]; try congruence; unfold on_update.
      rewrite E4. unfold todo; cbv zeta; cbn [y_store y_pc y_last y_known y_pub y_ack_seen y_end_seen y_net y_acks app]. rewrite E1, E2, E3, E4.
      replace (q =? y_ack_seen y) with false by lia. destruct (_ =? _), (_ =? _); lia.
  Qed.
  Lemma J_moves y y' H : J y H -> Dom (y_store y) H -> moves p s y y' -> J y' H.
  Proof.
    intros IJ DM MV. destruct MV; [apply J_send|apply J_ack|apply J_end|apply J_reply|apply J_update]; assumption.
  Qed.
  (** every sequence of moves ends *)
  Lemma J_ends y H : J y H -> Dom (y_store y) H -> Acc (fun y' y => moves p s y y') y.
  Proof.
    intros IJ DM. pose proof (todo_pos y H IJ) as TP. remember (Z.to_nat (todo y)) as n eqn:En. assert (todo y <= Z.of_nat n) as Hn by lia. clear En TP.
    revert y IJ DM Hn. induction n as [n IH] using lt_wf_ind. intros y IJ DM Hn. constructor. intros y' MV.
    pose proof (J_moves _ _ _ IJ DM MV) as IJ'. pose proof (todo_less _ _ _ IJ DM MV). pose proof (todo_pos _ _ IJ').
    apply (IH (Z.to_nat (todo y'))); [lia|assumption|rewrite (moves_store _ _ MV); assumption|lia].
  Qed.
  Lemma J_stuck y H : J y H -> (forall y', ~ moves p s y y') -> quiet p y \/ y_pc y = Ended.
  Proof.
    clear CO S0 Out0 Dom_back sends Dom.
    intros IJ ST. destruct (y_pc y) as [st| |] eqn:PC; [exfalso; exact (ST _ (m_send _ _ _ _ PC))| |right; reflexivity].
    left. split; [assumption|]. split; [destruct (Z.eq_dec (y_pub y) (y_ack_seen y)); [assumption|exfalso; exact (ST _ (m_ack _ _ _ PC n))]|].
    split; [destruct (Z.eq_dec (lim (y_store y)) (y_end_seen y)); [assumption|exfalso; exact (ST _ (m_end _ _ _ PC n))]|].
    split; [destruct (y_net y) eqn:E|destruct (y_acks y) eqn:E]; auto; exfalso.
    - apply (ST _ (m_reply p s y ltac:(congruence))).
    - apply (ST _ (m_update p s y ltac:(congruence))).
  Qed.
End Protocol.
