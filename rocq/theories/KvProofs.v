(** Proofs about the table of consumer offsets. *)
From Verif Require Import Base ListFacts WireModel WireSpec WireProofs RecordModel RecordSpec RecordProofs StorageSpec StorageProofs ReplicaProofs StorageClaims.
From Verif Require Import StreamModel StreamSpec StreamProofs KvModel KvSpec.

(** * Entries *)
Lemma is_bytes_u8 l : is_bytes l -> Forall (in_u 8) l.
Proof. apply Forall_impl. intros x. unfold is_byte, in_u. change (2 ^ 8) with 256. auto. Qed.
Lemma buf_dec l rest : is_bytes l -> zlen l < 2 ^ 31 -> c_dec buf_codec (c_enc buf_codec l ++ rest) = Ok (l, rest).
Proof.
  intros B Z. destruct (vec_lawful _ _ (u_lawful 1)) as (R & _). apply R. split; [|assumption].
  change (8 * Z.of_nat 1) with 8. apply is_bytes_u8. assumption.
Qed.
Lemma buf_bytes l : is_bytes l -> zlen l < 2 ^ 31 -> is_bytes (c_enc buf_codec l).
Proof.
  intros B Z. destruct (vec_lawful _ _ (u_lawful 1)) as (_ & _ & E). apply E. split; [|assumption].
  change (8 * Z.of_nat 1) with 8. apply is_bytes_u8. assumption.
Qed.
Lemma key_lawful : lawful key_codec key_good.
Proof.
  pose proof (pair_lawful _ _ _ _ (pair_lawful _ _ _ _ string_lawful (u_lawful 4)) string_lawful) as (R & S & B).
  unfold key_codec, u32_codec. split; [|split].
  - intros a rest (H1 & H2 & H3). apply R. auto.
  - intros a (H1 & H2 & H3). apply S. auto.
  - intros a (H1 & H2 & H3). apply B. auto.
Qed.
Lemma value_lawful : lawful value_codec value_good.
Proof. exact (pair_lawful _ _ _ _ (s_lawful 8 ltac:(lia)) (u_lawful 8)). Qed.
Lemma key_len k : key_good k -> zlen (c_enc key_codec k) < 2 ^ 31.
Proof.
  intros G. destruct key_lawful as (_ & S & _). rewrite <- S by assumption. destruct k as [[t p] i]. destruct G as ((_ & A) & _ & (_ & B)).
  cbn [fst snd] in *. unfold key_codec. cbn [c_size pair_codec string_codec u32_codec u_codec fst snd]. change (2 ^ 15) with 32768 in *. change (2 ^ 31) with 2147483648. lia.
Qed.
Lemma value_len v : value_good v -> zlen (c_enc value_codec v) < 2 ^ 31.
Proof. intros G. destruct value_lawful as (_ & S & _). rewrite <- S by assumption. destruct v. cbn. lia. Qed.
Lemma key_dec k : key_good k -> c_dec key_codec (c_enc key_codec k) = Ok (k, []).
Proof. intros G. destruct key_lawful as (R & _). rewrite <- (app_nil_r (c_enc key_codec k)). apply R. assumption. Qed.
Lemma value_dec v : value_good v -> c_dec value_codec (c_enc value_codec v) = Ok (v, []).
Proof. intros G. destruct value_lawful as (R & _). rewrite <- (app_nil_r (c_enc value_codec v)). apply R. assumption. Qed.

Inductive act := APut (k : key) (v : value) | ADel (k : key) | AReset.
Definition enc_act (a : act) : kentry :=
  match a with APut k v => updated k v | ADel k => deleted k | AReset => Checkpoint end.
Definition act_good (a : act) : Prop :=
  match a with APut k v => key_good k /\ value_good v | ADel k => key_good k | AReset => True end.
Definition run_act (t : table) (a : act) : table :=
  match a with APut k v => insert k v t | ADel k => erase k t | AReset => [] end.
Definition sem (l : list act) : table := fold_left run_act l [].

Lemma entry_dec_enc a : act_good a -> entry_dec (entry_enc (enc_act a)) = Ok (enc_act a).
Proof.
  destruct key_lawful as (_ & _ & KB), value_lawful as (_ & _ & VB).
  destruct a as [k v|k|]; cbn [act_good enc_act]; intros G; unfold updated, deleted, entry_enc, entry_dec.
  - destruct G as (GK & GV). change (be_enc 1 0) with [0]. cbn [app]. change (c_dec u8_codec (0 :: ?x)) with (Ok (0, x)).
    cbn [bind]. change (0 =? 0) with true. cbv iota. rewrite buf_dec by (try apply key_len; auto). cbn [bind].
    rewrite <- (app_nil_r (c_enc buf_codec (c_enc value_codec v))). rewrite buf_dec by (try apply value_len; auto). reflexivity.
  - change (be_enc 1 1) with [1]. cbn [app]. change (c_dec u8_codec (1 :: ?x)) with (Ok (1, x)).
    cbn [bind]. change (1 =? 0) with false. change (1 =? 1) with true. cbv iota.
    rewrite <- (app_nil_r (c_enc buf_codec (c_enc key_codec k))). rewrite buf_dec by (try apply key_len; auto). reflexivity.
  - reflexivity.
Qed.
Lemma entry_bytes a : act_good a -> is_bytes (entry_enc (enc_act a)).
Proof.
  destruct key_lawful as (_ & _ & KB), value_lawful as (_ & _ & VB).
  destruct a as [k v|k|]; cbn [act_good enc_act]; intros G; unfold updated, deleted, entry_enc.
  - destruct G as (GK & GV). apply is_bytes_app. split; [apply be_enc_bytes|]. apply is_bytes_app. split; apply buf_bytes; auto using key_len, value_len.
  - apply is_bytes_app. split; [apply be_enc_bytes|]. apply buf_bytes; auto using key_len.
  - apply be_enc_bytes.
Qed.

(** * Batches *)
Lemma number_from_again l m : forall i j, number_from i (number_from j l ++ m) = number_from i (l ++ m).
Proof. induction l as [|r l IH]; intros i j; [reflexivity|]. cbn [number_from app]. rewrite IH. reflexivity. Qed.
Lemma kv_batch_snoc l e : kv_batch (l ++ [e]) = add_records (kv_batch l) [record_of e].
Proof. unfold kv_batch. rewrite fold_left_app. reflexivity. Qed.
Lemma kv_batch_is l : l <> [] -> exists len, kv_batch l = mkBatch 0 len (with_last_delta default_header (zlen l - 1)) 0 (number_from 0 (map record_of l)).
Proof.
  induction l as [|e l IH] using rev_ind; [congruence|]. intros _. rewrite kv_batch_snoc.
  destruct l as [|e0 l0].
  - eexists. reflexivity.
  - destruct IH as (len & ->); [discriminate|]. unfold add_records. cbn [b_base b_len b_hdr b_schema b_recs]. eexists. f_equal.
    + unfold with_last_delta. cbn [h_epoch h_magic h_crc h_attr h_first_ts h_max_ts h_pid h_pepoch h_seq]. f_equal.
      rewrite !zlen_app. f_equal. f_equal. unfold zlen. rewrite number_from_length, map_length. reflexivity.
    + rewrite number_from_again, map_app. reflexivity.
Qed.
Lemma number_from_in l : forall i x, In x (number_from i l) -> exists r o, x = set_off o r /\ In r l /\ i <= o < i + zlen l.
Proof.
  induction l as [|r l IH]; intros i x; cbn [number_from]; [contradiction|]. rewrite zlen_cons. pose proof (zlen_nonneg l).
  intros [<-|I]; [exists r, i; split; [reflexivity|split; [left; reflexivity|lia]]|].
  destruct (IH _ _ I) as (r' & o & -> & I' & B). exists r', o. split; [reflexivity|]. split; [right; assumption|lia].
Qed.
Lemma body_pos r : 1 <= zlen (rec_body r).
Proof.
  unfold rec_body, body_tuple_codec, rec_tuple. cbn [c_enc pair_codec i8_codec s_codec fst snd]. rewrite zlen_app.
  replace (zlen (be_enc 1 (r_attr r))) with 1 by reflexivity. match goal with |- context [zlen ?x] => pose proof (zlen_nonneg x) end. lia.
Qed.
Lemma body_val r : zlen (r_val r) <= zlen (rec_body r).
Proof.
  unfold rec_body, body_tuple_codec, rec_tuple. cbn [c_enc pair_codec fst snd]. rewrite !zlen_app. cbn [c_enc record_data_codec]. rewrite zlen_app.
  repeat match goal with |- context [zlen ?x + _] => lazymatch goal with H : 0 <= zlen x |- _ => fail | _ => pose proof (zlen_nonneg x) end end.
  match goal with |- context [_ + zlen ?x] => pose proof (zlen_nonneg x) end.
  repeat match goal with |- context [zlen ?x] => lazymatch goal with H : 0 <= zlen x |- _ => fail | _ => pose proof (zlen_nonneg x) end end. lia.
Qed.
Lemma enc_sum l : zlen l <= zlen (flat_map (c_enc rec_codec) l) /\ (forall r, In r l -> zlen (rec_body r) <= zlen (flat_map (c_enc rec_codec) l)).
Proof.
  induction l as [|x l (IH1 & IH2)]; [split; [reflexivity|contradiction]|]. cbn [flat_map]. rewrite zlen_cons, zlen_app.
  change (c_enc rec_codec x) with (varint_encode (zlen (rec_body x)) ++ rec_body x). rewrite zlen_app.
  set (v := zlen (varint_encode _)). assert (0 <= v) by apply zlen_nonneg. clearbody v. pose proof (body_pos x). pose proof (zlen_nonneg (flat_map (c_enc rec_codec) l)).
  split; [lia|]. intros r [->|I]; [lia|]. specialize (IH2 _ I). lia.
Qed.
Lemma memory_len l : zlen (c_enc memory_codec l) = 4 + zlen (flat_map (c_enc rec_codec) l).
Proof. cbn [c_enc memory_codec vec_codec]. unfold vec_enc. rewrite zlen_app. reflexivity. Qed.
Lemma renc_kv l : l <> [] -> zlen (renc (to_raw (kv_batch l))) = 57 + zlen (c_enc memory_codec (b_recs (kv_batch l))).
Proof.
  intros NE. destruct (kv_batch_is l NE) as (len & ->). unfold to_raw. cbn [b_base b_hdr b_schema b_recs]. rewrite renc_split, zlen_app, hdr_zlen. reflexivity.
Qed.
Lemma kv_batch_ok l : l <> [] -> Forall act_good l -> zlen (renc (to_raw (kv_batch (map enc_act l)))) < 2 ^ 31 - 4 -> mem_batch_ok (kv_batch (map enc_act l)).
Proof.
  intros NE G SZ. assert (map enc_act l <> []) as NE' by (destruct l; [congruence|discriminate]).
  rewrite (renc_kv _ NE') in SZ. destruct (kv_batch_is _ NE') as (len & E). rewrite E in *. cbn [b_recs] in SZ.
  set (rs := number_from 0 (map record_of (map enc_act l))) in *.
  destruct (enc_sum rs) as (E1 & E2). rewrite memory_len in SZ.
  assert (zlen rs = zlen l) as ZL by (unfold rs, zlen; rewrite number_from_length, !map_length; reflexivity).
  change (2 ^ 31) with 2147483648 in *.
  unfold mem_batch_ok, batch_ok. cbn [b_base b_schema b_hdr b_recs]. rewrite memory_len. split; [vm_compute; split; congruence|]. split; [vm_compute; split; congruence|]. split.
  { unfold header_ok, with_last_delta. cbn [h_epoch h_magic h_attr h_last_delta h_first_ts h_max_ts h_pid h_pepoch h_seq default_header].
    assert (zlen (map enc_act l) = zlen l) as -> by (unfold zlen; rewrite map_length; reflexivity). pose proof (zlen_nonneg l).
    split; [vm_compute; split; congruence|]. split; [vm_compute; split; congruence|]. split; [vm_compute; split; congruence|].
    split; [unfold in_s; change (2 ^ (32 - 1)) with 2147483648; lia|]. split; [vm_compute; split; congruence|].
    split; [vm_compute; split; congruence|]. split; [vm_compute; split; congruence|]. split; vm_compute; split; congruence. }
  change (2 ^ 31) with 2147483648. split; [|lia]. split; [|change (2 ^ 31) with 2147483648; lia]. apply Forall_forall. intros x IN. specialize (E2 _ IN).
  pose proof (body_val x) as BV. destruct (number_from_in _ _ _ IN) as (r & o & -> & I & B).
  rewrite map_map in I. apply in_map_iff in I as (a & <- & I). rewrite Forall_forall in G. specialize (G _ I).
  assert (zlen (map record_of (map enc_act l)) = zlen l) as ZM by (unfold zlen; rewrite !map_length; reflexivity). rewrite ZM in B.
  unfold rec_ok. cbn [r_attr r_ts r_off r_headers r_val r_key set_off record_of] in *.
  split; [vm_compute; split; congruence|]. split; [vm_compute; split; congruence|]. split; [unfold in_s; change (2 ^ (32 - 1)) with 2147483648; lia|].
  split; [vm_compute; split; congruence|]. change (2 ^ 31) with 2147483648. split; [split; [apply entry_bytes; assumption|change (2 ^ 31) with 2147483648; lia]|]. split; [exact Logic.I|lia].
Qed.
Lemma kv_len l : l <> [] -> records_len (to_raw (kv_batch l)) = zlen l.
Proof.
  intros NE. destruct (kv_batch_is l NE) as (len & ->). unfold records_len, to_raw. cbn [b_hdr with_last_delta h_last_delta].
  assert (0 < zlen l) by (destruct l; [congruence|rewrite zlen_cons; pose proof (zlen_nonneg l); lia]). replace (zlen l - 1 <? 0) with false by lia. lia.
Qed.

(** [b] is a stored batch with these changes. *)
Definition holds (b : batch bytes) (l : list act) : Prop :=
  l <> [] /\ Forall act_good l /\ records_len b = zlen l
  /\ b_recs b = c_enc memory_codec (number_from 0 (map record_of (map enc_act l)))
  /\ schema_bytes b = [] /\ records_ok (number_from 0 (map record_of (map enc_act l))).
Lemma kv_holds l o : l <> [] -> Forall act_good l -> zlen (renc (to_raw (kv_batch (map enc_act l)))) < 2 ^ 31 - 4 ->
  holds (with_base (to_raw (kv_batch (map enc_act l))) o) l.
Proof.
  intros NE G SZ. assert (map enc_act l <> []) as NE' by (destruct l; [congruence|discriminate]).
  pose proof (kv_batch_ok l NE G SZ) as (_ & _ & _ & RO & _). split; [assumption|]. split; [assumption|].
  split; [rewrite with_base_len, kv_len by assumption; unfold zlen; rewrite map_length; reflexivity|].
  destruct (kv_batch_is _ NE') as (len & E). rewrite E in *. cbn [b_recs] in RO. split; [reflexivity|]. split; [reflexivity|]. assumption.
Qed.
Lemma kv_honest l : l <> [] -> Forall act_good l -> zlen (renc (to_raw (kv_batch (map enc_act l)))) < 2 ^ 31 - 4 ->
  honest (to_raw (kv_batch (map enc_act l))).
Proof.
  intros NE G SZ. assert (map enc_act l <> []) as NE' by (destruct l; [congruence|discriminate]).
  pose proof (kv_batch_ok l NE G SZ) as OK. set (b := kv_batch (map enc_act l)) in *.
  destruct (to_memory_prefix b (to_raw b) (b_recs b) OK) as (m & E & _ & _ & _ & F).
  - exists (zlen (c_enc memory_codec (b_recs b))). rewrite ztake_all by lia. reflexivity.
  - reflexivity.
  - exists m. split; [exact E|]. rewrite (F eq_refl). unfold b. rewrite kv_len by assumption.
    destruct (kv_batch_is _ NE') as (len & ->). cbn [b_recs]. unfold zlen. rewrite number_from_length, map_length. reflexivity.
Qed.

(** * Tables *)
Lemma bytes_eqb_eq a : forall b, bytes_eqb a b = true <-> a = b.
Proof.
  induction a as [|x a IH]; intros [|y b]; cbn [bytes_eqb]; split; try congruence; try reflexivity.
  - intros E. apply andb_true_iff in E as (E1 & E2). apply IH in E2. f_equal; [lia|assumption].
  - intros [= -> ->]. rewrite Z.eqb_refl. apply IH. reflexivity.
Qed.
Lemma key_eqb_eq a b : key_eqb a b = true <-> a = b.
Proof.
  destruct a as [[t p] i], b as [[t' p'] i']. unfold key_eqb. cbn [fst snd]. rewrite !andb_true_iff, !bytes_eqb_eq. split.
  - intros ((-> & E) & ->). f_equal. f_equal. lia.
  - intros [= -> -> ->]. rewrite Z.eqb_refl. auto.
Qed.
Lemma key_eqb_refl a : key_eqb a a = true.
Proof. apply key_eqb_eq. reflexivity. Qed.
Lemma key_eqb_sym a b : key_eqb a b = key_eqb b a.
Proof. apply eq_true_iff_eq. rewrite !key_eqb_eq. split; congruence. Qed.
Lemma lookup_erase k k' t : lookup k (erase k' t) = if key_eqb k k' then None else lookup k t.
Proof.
  induction t as [|[x v] t IH]; [destruct (key_eqb k k'); reflexivity|]. cbn [erase filter fst]. fold (erase k' t).
  destruct (key_eqb k' x) eqn:E; cbn [negb].
  - rewrite IH. destruct (key_eqb k k') eqn:E'; [reflexivity|]. cbn [lookup]. apply key_eqb_eq in E as <-. rewrite E'. reflexivity.
  - cbn [lookup]. rewrite IH. destruct (key_eqb k x) eqn:E2; [|reflexivity]. apply key_eqb_eq in E2 as <-. rewrite key_eqb_sym in E. rewrite E. reflexivity.
Qed.
Lemma lookup_insert k k' v t : lookup k (insert k' v t) = if key_eqb k k' then Some v else lookup k t.
Proof. unfold insert. cbn [lookup]. destruct (key_eqb k k') eqn:E; [reflexivity|]. rewrite lookup_erase, E. reflexivity. Qed.
Lemma same_run a b x : same a b -> same (run_act a x) (run_act b x).
Proof.
  intros S k. destruct x as [k' v|k'|]; cbn [run_act]; [rewrite !lookup_insert|rewrite !lookup_erase|reflexivity]; destruct (key_eqb k k'); auto.
Qed.
Lemma same_runs l : forall a b, same a b -> same (fold_left run_act l a) (fold_left run_act l b).
Proof. induction l as [|x l IH]; intros a b S; [assumption|]. cbn [fold_left]. apply IH, same_run. assumption. Qed.

Definition entry_good (e : key * value) : Prop := key_good (fst e) /\ value_good (snd e).
Definition table_good (t : table) : Prop := NoDup (map fst t) /\ Forall entry_good t.
Lemma erase_in k x t : In x (erase k t) -> In x t.
Proof. unfold erase. rewrite filter_In. tauto. Qed.
Lemma erase_good k t : table_good t -> table_good (erase k t).
Proof.
  intros (N & F). split.
  - induction t as [|[x v] t IH]; [constructor|]. inversion N; subst. inversion F; subst. cbn [erase filter fst]. fold (erase k t). destruct (negb _); [|auto].
    cbn [map fst]. constructor; [|auto]. intros I. apply H1. apply in_map_iff in I as (y & E & I). apply in_map_iff. exists y. split; [assumption|]. eapply erase_in; eassumption.
  - rewrite Forall_forall in *. intros x I. apply F. eapply erase_in; eassumption.
Qed.
Lemma insert_good k v t : table_good t -> key_good k -> value_good v -> table_good (insert k v t).
Proof.
  intros G K V. destruct (erase_good k t G) as (N & F). split.
  - unfold insert. cbn [map fst]. constructor; [|assumption]. intros I. apply in_map_iff in I as (y & E & I). unfold erase in I.
    apply filter_In in I as (_ & I). rewrite E, key_eqb_refl in I. discriminate.
  - constructor; [split; assumption|assumption].
Qed.
Lemma run_good a t : table_good t -> act_good a -> table_good (run_act t a).
Proof.
  intros G A. destruct a as [k v|k|]; cbn [run_act act_good] in *; [apply insert_good; tauto|apply erase_good; assumption|split; constructor].
Qed.
Lemma runs_good l : forall t, table_good t -> Forall act_good l -> table_good (fold_left run_act l t).
Proof. induction l as [|a l IH]; intros t G F; [assumption|]. inversion F; subst. cbn [fold_left]. apply IH; [apply run_good|]; assumption. Qed.

Lemma lookup_in t k v : NoDup (map fst t) -> (lookup k t = Some v <-> In (k, v) t).
Proof.
  induction t as [|[x w] t IH]; cbn [lookup map fst]; intros N; [split; [discriminate|contradiction]|].
  inversion N; subst. destruct (key_eqb k x) eqn:E.
  - apply key_eqb_eq in E as ->. split.
    + intros [= ->]. left. reflexivity.
    + intros [[= ->]|I]; [reflexivity|]. exfalso. apply H1. apply in_map_iff. exists (x, v). auto.
  - rewrite IH by assumption. split; [right; assumption|]. intros [[= -> ->]|I]; [rewrite key_eqb_refl in E; discriminate|assumption].
Qed.
Lemma lookup_perm a b : Permutation a b -> NoDup (map fst b) -> same a b.
Proof.
  intros P N k. assert (NoDup (map fst a)) as N' by (eapply Permutation_NoDup; [apply Permutation_map; apply Permutation_sym; eassumption|assumption]).
  destruct (lookup k a) as [v|] eqn:E.
  - apply lookup_in in E; [|assumption]. symmetry. apply lookup_in; [assumption|]. eapply Permutation_in; eassumption.
  - destruct (lookup k b) as [v|] eqn:E'; [|reflexivity]. apply lookup_in in E'; [|assumption].
    apply (Permutation_in _ (Permutation_sym P)) in E'. apply lookup_in in E'; [|assumption]. congruence.
Qed.
Definition puts (t : table) : list act := map (fun e => APut (fst e) (snd e)) t.
Lemma lookup_puts o k : forall t, NoDup (map fst o) ->
  lookup k (fold_left run_act (puts o) t) = match lookup k o with Some v => Some v | None => lookup k t end.
Proof.
  induction o as [|[x v] o IH]; intros t N; [reflexivity|]. cbn [puts map fold_left run_act fst snd lookup] in *. inversion N; subst.
  fold (puts o). rewrite IH by assumption. rewrite lookup_insert. destruct (lookup k o) as [w|] eqn:E; [|destruct (key_eqb k x); reflexivity].
  destruct (key_eqb k x) eqn:E'; [|reflexivity]. apply key_eqb_eq in E' as ->. apply lookup_in in E; [|assumption]. exfalso. apply H1. apply in_map_iff. exists (x, w). auto.
Qed.
Lemma flush_same o t : Permutation o t -> NoDup (map fst t) -> same (fold_left run_act (AReset :: puts o) []) t.
Proof.
  intros P N k. cbn [fold_left run_act]. rewrite lookup_puts.
  - rewrite (lookup_perm _ _ P N k). destruct (lookup k t); reflexivity.
  - eapply Permutation_NoDup; [apply Permutation_map; apply Permutation_sym; eassumption|assumption].
Qed.

(** * Entries up to the last checkpoint *)
Fixpoint take_acts (l : list act) : list act * bool :=
  match l with
  | [] => ([], false)
  | AReset :: _ => ([], true)
  | a :: t => let (x, f) := take_acts t in (a :: x, f)
  end.
Definition is_reset (a : act) : bool := match a with AReset => true | _ => false end.
Lemma take_acts_app a b : take_acts (a ++ b) = if snd (take_acts a) then take_acts a else (fst (take_acts a) ++ fst (take_acts b), snd (take_acts b)).
Proof.
  induction a as [|x a IH]; cbn [app take_acts fst snd]; [destruct (take_acts b); reflexivity|].
  destruct x; [| |reflexivity]; rewrite IH; destruct (take_acts a) as [y f]; cbn [fst snd]; destruct f; cbn [fst snd]; destruct (take_acts b); reflexivity.
Qed.
Lemma take_acts_flag l : snd (take_acts l) = existsb is_reset l.
Proof. induction l as [|x l IH]; [reflexivity|]. cbn [take_acts existsb]. destruct x; cbn [is_reset orb]; [| |reflexivity]; destruct (take_acts l); exact IH. Qed.
Lemma existsb_rev {A} (f : A -> bool) l : existsb f (rev l) = existsb f l.
Proof. induction l as [|x l IH]; [reflexivity|]. cbn [rev existsb]. rewrite existsb_app, IH. cbn [existsb]. rewrite orb_false_r. apply orb_comm. Qed.
Lemma take_acts_clean l : Forall (fun a => is_reset a = false) (fst (take_acts l)).
Proof. induction l as [|x l IH]; [constructor|]. cbn [take_acts]. destruct x; [| |constructor]; destruct (take_acts l); constructor; auto. Qed.
Lemma take_acts_in l x : In x (fst (take_acts l)) -> In x l.
Proof. induction l as [|y l IH]; [auto|]. cbn [take_acts]. destruct y; [| |contradiction]; destruct (take_acts l); cbn [fst] in *; intros [<-|I]; [left; reflexivity|right; auto|left; reflexivity|right; auto]. Qed.
Lemma sem_take A : fold_left run_act (rev (fst (take_acts (rev A)))) [] = sem A.
Proof.
  induction A as [|a A IH] using rev_ind; [reflexivity|]. rewrite rev_app_distr. unfold sem. rewrite fold_left_app. cbn [app rev take_acts fold_left].
  fold (sem A). destruct a as [k v|k|]; [| |reflexivity]; destruct (take_acts (rev A)) as [x f]; cbn [fst rev] in *; rewrite fold_left_app, IH; reflexivity.
Qed.
Lemma apply_acts l : forall t, Forall act_good l -> Forall (fun a => is_reset a = false) l ->
  fold_left apply_entry (map (fun a => Ok (enc_act a)) l) (Ok t) = Ok (fold_left run_act l t).
Proof.
  induction l as [|a l IH]; intros t G C; [reflexivity|]. inversion G; subst. inversion C; subst. cbn [map fold_left].
  rewrite <- IH by assumption. f_equal. destruct a as [k v|k|]; [| |discriminate]; cbn [act_good] in *.
  - unfold apply_entry, enc_act, updated. cbn [bind]. rewrite key_dec by tauto. cbn [bind]. rewrite value_dec by tauto. reflexivity.
  - unfold apply_entry, enc_act, deleted. cbn [bind]. rewrite key_dec by assumption. reflexivity.
Qed.

(** * Reading the log backwards *)
Lemma take_batch_acts l : forall A, map (fun x : Z * rec => entry_dec (r_val (snd x))) l = map (fun a => Ok (enc_act a)) A ->
  take_batch l = (map (fun a => Ok (enc_act a)) (fst (take_acts A)), snd (take_acts A)).
Proof.
  induction l as [|[o r] l IH]; intros [|a A] E; try discriminate; [reflexivity|]. cbn [map fst snd] in E. inversion E as [[E1 E2]].
  cbn [take_batch take_acts]. rewrite E1. rewrite (IH _ E2). destruct a as [k v|k|]; cbn [enc_act]; [| |reflexivity]; unfold updated, deleted; destruct (take_acts A); reflexivity.
Qed.
Lemma number_vals l : forall i, map r_val (number_from i l) = map r_val l.
Proof. induction l as [|r l IH]; intros i; [reflexivity|]. cbn [number_from map]. rewrite IH. reflexivity. Qed.
Definition items_of (base : Z) (l : list act) : list (Z * rec) :=
  map (fun r => (base + r_off r, r)) (number_from 0 (map record_of (map enc_act l))).
Lemma items_vals base l : Forall act_good l -> map (fun x : Z * rec => entry_dec (r_val (snd x))) (items_of base l) = map (fun a => Ok (enc_act a)) l.
Proof.
  intros G. unfold items_of. rewrite map_map. cbn [snd].
  rewrite <- (map_map r_val entry_dec).
  rewrite number_vals, !map_map. apply map_ext_in. intros a I. cbn [record_of r_val]. apply entry_dec_enc. rewrite Forall_forall in G. auto.
Qed.
Lemma first_holds b l post : holds b l -> raw_batch_ok b -> first_records (encs (b :: post)) = Ok (items_of (b_base b) l).
Proof.
  intros (NE & G & LEN & RS & SC & RO) OK. unfold first_records. change (encs (b :: post)) with ([] ++ renc b ++ encs post).
  change 0 with (zlen (@nil Z)). rewrite read_from_whole by assumption. cbn [app]. change (zlen []) with 0. rewrite Z.add_0_l.
  assert (ztake (zlen (renc b)) (renc b ++ encs post) = renc b) as -> by apply ztake_app_exact.
  change BATCH_FILE_HEADER_SIZE with 57. rewrite renc_split, SC. cbn [app]. rewrite <- (hdr_zlen (b_base b) (blen b) (stored_hdr b)). rewrite zdrop_app_exact.
  rewrite RS, mem_dec_full by assumption. reflexivity.
Qed.
Lemma contains_unique H : forall s e b1 b2 o, chain s H e -> In b1 H -> In b2 H -> contains b1 o -> contains b2 o -> b1 = b2.
Proof.
  induction H as [|b H IH]; intros s e b1 b2 o CH I1 I2 C1 C2; [contradiction|]. cbn [chain] in CH. destruct CH as (E & P & CH).
  unfold contains in *. destruct I1 as [<-|I1], I2 as [<-|I2]; [reflexivity| | |exact (IH _ _ _ _ _ CH I1 I2 C1 C2)].
  - apply (chain_in _ _ _ _ CH) in I2. unfold batch_end in *. lia.
  - apply (chain_in _ _ _ _ CH) in I1. unfold batch_end in *. lia.
Qed.
Lemma read_batch_at c r H b C l last : config_ok c -> logged c r ((H ++ [b]) ++ C) -> chain 0 H (b_base b) -> holds b l ->
  b_base b < last <= b_base b + records_len b ->
  read_batch r last = if get_log_start r <=? b_base b then Ok (items_of (b_base b) l) else Err InvalidData.
Proof.
  intros CO LG CH0 HB RG. pose proof (logged_chain _ _ _ LG) as CH. destruct LG as (old & L & E & I & C0 & HW & HO).
  pose proof (chain_le _ _ _ CH0) as B0. destruct (chain_split _ _ _ _ CH) as (m & CHb & CHC). destruct (chain_split _ _ _ _ CHb) as (m' & CHH & CHB).
  rewrite (chain_fun _ _ _ _ CHH CH0) in CHB. cbn [chain] in CHB. destruct CHB as (_ & P & Em). pose proof (chain_le _ _ _ CHC).
  unfold read_batch. replace (last - 1 <? 0) with false by lia. destruct (get_log_start r <=? b_base b) eqn:LS.
  - destruct (read_uncommitted_full c r L (last - 1) (2 ^ 32 - 1) CO I ltac:(lia)) as (pre & b2 & post & rest & EL & CT & RD & _ & SZ & _).
    assert (In b2 L) as IL by (rewrite EL; apply in_app_iff; right; left; reflexivity).
    assert (b2 = b) as ->.
    { apply (contains_unique _ _ _ _ _ (last - 1) CH); [rewrite E; apply in_app_iff; right; assumption| |assumption|unfold contains; lia].
      apply in_app_iff. left. apply in_app_iff. right. left. reflexivity. }
    rewrite RD. cbn [sl_bytes]. fold (encs (b :: post)). rewrite ztake_all by (destruct CO as (CO & _); change (2 ^ 31) with 2147483648 in CO; change (2 ^ 32) with 4294967296; lia).
    apply first_holds; [assumption|]. destruct (inv_stores _ _ _ I) as (_ & OKL). rewrite Forall_forall in OKL. auto.
  - assert (last - 1 < get_log_start r) as LT.
    { destruct (Z.lt_ge_cases (last - 1) (get_log_start r)) as [|GE]; [assumption|exfalso].
      assert (In b ((H ++ [b]) ++ C)) as IN by (apply in_app_iff; left; apply in_app_iff; right; left; reflexivity).
      rewrite E in IN. apply in_app_iff in IN as [IN|IN]; [apply (chain_in _ _ _ _ C0) in IN; unfold batch_end in IN; lia|].
      destruct (inv_stores _ _ _ I) as ((_ & CL) & _). apply (chain_in _ _ _ _ CL) in IN. lia. }
    rewrite (read_below c r L _ _ _ I LT).
    reflexivity.
Qed.

(** The log, the changes it holds and the table after each batch. *)
Inductive al : list (batch bytes) -> list snapshot -> list act -> Prop :=
  | al_nil : al [] [] []
  | al_snoc H T A b l t : al H T A -> holds b l -> same (sem (A ++ l)) t ->
      al (H ++ [b]) ((b_base b, t, existsb is_reset l) :: T) (A ++ l).
Lemma al_good H T A : al H T A -> Forall act_good A.
Proof. induction 1 as [|H T A b l t AL IH HB S]; [constructor|]. apply Forall_app. split; [assumption|apply HB]. Qed.
Definition flagged (ls : Z) (T : list snapshot) : bool := existsb (fun x => snd x && (ls <=? fst (fst x))) T.
Definition reach (ls : Z) (T : list snapshot) : bool := match T with [] => true | _ => (ls =? 0) || flagged ls T end.
Lemma al_bases H T A : al H T A -> forall e, chain 0 H e -> forall x, In x T -> 0 <= fst (fst x) < e.
Proof.
  induction 1 as [|H T A b l t AL IH HB S]; intros e CH x; [contradiction|]. destruct (chain_split _ _ _ _ CH) as (m & C1 & C2).
  cbn [chain] in C2. destruct C2 as (E & P & C2). pose proof (chain_le _ _ _ C1). intros [<-|I]; [cbn [fst]; lia|]. specialize (IH _ C1 _ I). lia.
Qed.
Lemma flagged_high H T A ls e : al H T A -> chain 0 H e -> e <= ls -> flagged ls T = false.
Proof.
  intros AL CH LE. destruct (flagged ls T) eqn:E; [|reflexivity]. unfold flagged in E. apply existsb_exists in E as (x & I & F).
  pose proof (al_bases _ _ _ AL _ CH _ I). apply andb_true_iff in F as (_ & F). lia.
Qed.

Lemma walk c r : config_ok c -> 0 <= get_log_start r -> forall H T A, al H T A -> forall C e last fuel, logged c r (H ++ C) -> chain 0 H e ->
  (H = [] -> last = 0) -> (forall H' b, H = H' ++ [b] -> b_base b < last <= e) -> (length H < fuel)%nat ->
  rev_entries fuel r last = if reach (get_log_start r) T then Ok (map (fun a => Ok (enc_act a)) (fst (take_acts (rev A)))) else Err Panic.
Proof.
  intros CO LS0. induction 1 as [|H T A b l t AL IH HB S]; intros C e last fuel LG CH NIL SN FU.
  - destruct fuel as [|fuel]; [cbn in FU; lia|]. rewrite NIL by reflexivity. reflexivity.
  - destruct fuel as [|fuel]; [lia|]. cbn [rev_entries]. destruct (chain_split _ _ _ _ CH) as (m & C1 & C2). cbn [chain] in C2. destruct C2 as (E & P & C2). subst m.
    specialize (SN _ _ eq_refl). rewrite (read_batch_at c r H b C l last CO LG C1 HB ltac:(lia)).
    cbn [reach flagged existsb fst snd]. fold (flagged (get_log_start r) T).
    destruct (get_log_start r <=? b_base b) eqn:LS.
    2: { replace (get_log_start r =? 0) with false by (pose proof (chain_le _ _ _ C1); lia). rewrite andb_false_r. cbn [orb].
         rewrite (flagged_high _ _ _ _ _ AL C1) by lia. reflexivity. }
    pose proof HB as (NE & G & LEN & _). rewrite andb_true_r.
    destruct (rev (items_of (b_base b) l)) as [|x newest] eqn:ER.
    { exfalso. apply (f_equal (@length _)) in ER. rewrite rev_length in ER. unfold items_of in ER. rewrite map_length, number_from_length, !map_length in ER. destruct l; [congruence|discriminate]. }
    rewrite <- ER. rewrite (take_batch_acts _ (rev l)) by (rewrite map_rev, items_vals by assumption; symmetry; apply map_rev).
    rewrite rev_app_distr, take_acts_app, take_acts_flag, existsb_rev.
    destruct (existsb is_reset l) eqn:F; cbn [orb].
    + rewrite orb_true_r. reflexivity.
    + assert (match items_of (b_base b) l with [] => last | (o, _) :: _ => o end = b_base b) as ->.
      { destruct l as [|a l]; [congruence|]. unfold items_of. cbn [map number_from]. cbn [set_off r_off]. lia. }
      rewrite app_length in FU. cbn [length] in FU.
      rewrite (IH ([b] ++ C) (b_base b) (b_base b) fuel); [|rewrite app_assoc; assumption|assumption| | |lia].
      * cbn [fst snd]. assert ((get_log_start r =? 0) || flagged (get_log_start r) T = reach (get_log_start r) T) as ->.
        { destruct T as [|x' T']; [|reflexivity]. inversion AL; subst. cbn [chain] in C1. cbn [reach flagged existsb]. rewrite orb_false_r. lia. }
        destruct (reach _ T); [|reflexivity]. cbn [bind]. rewrite map_app. reflexivity.
      * intros ->. cbn [chain] in C1. lia.
      * intros H' b' ->. destruct (chain_split _ _ _ _ C1) as (m' & C3 & C4). cbn [chain] in C4. lia.
Qed.
Lemma chain_length H : forall s e, chain s H e -> Z.of_nat (length H) <= e - s.
Proof. induction H as [|b H IH]; intros s e; cbn [chain length]; [lia|]. intros (_ & P & C). apply IH in C. lia. Qed.

(** * What a reload finds *)
Lemma cut_at H T A hw : al H T A -> forall e, chain 0 H e -> 0 <= hw <= e ->
  exists H1 C T2 T1 A1 m, H = H1 ++ C /\ T = T2 ++ T1 /\ al H1 T1 A1 /\ chain 0 H1 m
    /\ (H1 = [] -> hw = 0) /\ (forall H' b, H1 = H' ++ [b] -> b_base b < hw <= m)
    /\ (forall x, In x T2 -> hw <= fst (fst x)) /\ (forall x T', T1 = x :: T' -> fst (fst x) < hw /\ same (sem A1) (snd (fst x)))
    /\ (forall x, In x T1 -> fst (fst x) < hw).
Proof.
  induction 1 as [|H T A b l t AL IH HB S]; intros e CH RG.
  - exists [], [], [], [], [], e. cbn [chain] in CH. subst e. split; [reflexivity|]. split; [reflexivity|]. split; [constructor|]. split; [reflexivity|].
    split; [lia|]. split; [intros [|? ?] ? E; discriminate|]. split; [intros x []|]. split; [discriminate|]. intros x [].
  - destruct (chain_split _ _ _ _ CH) as (m & C1 & C2). cbn [chain] in C2. destruct C2 as (E & P & C2). subst m.
    destruct (Z.lt_ge_cases (b_base b) hw) as [LT|GE].
    + exists (H ++ [b]), [], [], ((b_base b, t, existsb is_reset l) :: T), (A ++ l), e.
      split; [rewrite app_nil_r; reflexivity|]. split; [reflexivity|]. split; [constructor; assumption|]. split; [assumption|].
      split; [intros E; destruct H; discriminate|]. split; [intros H' b' E; apply app_inj_tail in E as (_ & <-); lia|].
      split; [intros x []|]. split; [intros x T' [= <- _]; cbn [fst snd]; auto|].
      intros x [<-|I]; [assumption|]. pose proof (al_bases _ _ _ AL _ C1 _ I). lia.
    + destruct (IH _ C1 ltac:(lia)) as (H1 & C & T2 & T1 & A1 & m & -> & -> & AL1 & CH1 & N & SN & X2 & X1 & X3).
      exists H1, (C ++ [b]), ((b_base b, t, existsb is_reset l) :: T2), T1, A1, m.
      split; [rewrite app_assoc; reflexivity|]. split; [reflexivity|]. split; [assumption|]. split; [assumption|]. split; [assumption|]. split; [assumption|].
      split; [intros x [<-|I]; [cbn [fst]; lia|auto]|]. split; assumption.
Qed.
Lemma find_none_high T2 hw : (forall x : snapshot, In x T2 -> hw <= fst (fst x)) -> forall T1, find (fun x : snapshot => fst (fst x) <? hw) (T2 ++ T1) = find (fun x => fst (fst x) <? hw) T1.
Proof.
  induction T2 as [|x T2 IH]; intros F T1; [reflexivity|]. cbn [app find]. pose proof (F x (or_introl eq_refl)). replace (fst (fst x) <? hw) with false by lia.
  apply IH. intros y I. apply F. right. assumption.
Qed.
Lemma al_length H T A : al H T A -> length H = length T.
Proof. induction 1 as [|H T A b l t AL IH HB S]; [reflexivity|]. rewrite app_length. cbn [length]. lia. Qed.
Lemma al_sem H H' T A A' : al H T A -> al H' T A' -> same (sem A) (sem A').
Proof.
  intros X Y. inversion X as [|H1 T1 A1 b l t AL HB S]; subst.
  - inversion Y; subst. intros k. reflexivity.
  - inversion Y as [|H2 T2 A2 b2 l2 t2 AL2 HB2 S2]; subst. intros k. rewrite S, S2. reflexivity.
Qed.
Lemma reload_is c r H T A : config_ok c -> logged c r H -> al H T A -> 0 <= get_hw r ->
  exists A1, same (sem A1) (as_of (get_hw r) T) /\ Forall act_good A1 /\ (get_hw r = get_leo r -> same (sem A1) (sem A))
  /\ ((kept r T /\ replay r = Ok (sem A1)) \/ (~ kept r T /\ replay r = Err Panic)).
Proof.
  intros CO LG AL HW0. pose proof (logged_chain _ _ _ LG) as CH. pose proof LG as (old & L & E0 & I0 & C0 & HW & _).
  pose proof (chain_le _ _ _ C0) as LS0.
  destruct (cut_at _ _ _ (get_hw r) AL _ CH ltac:(lia)) as (H1 & C & T2 & T1 & A1 & m & EH & ET & AL1 & CH1 & N & SN & X2 & X1 & X3).
  assert (get_hw r <= m /\ (length H1 <= Z.to_nat (get_hw r))%nat) as (LM & LEN).
  { destruct H1 as [|b0 H0]; [rewrite N by reflexivity; cbn [chain] in CH1; cbn; lia|].
    destruct (@exists_last _ (b0 :: H0)) as (H' & b & E); [discriminate|]. rewrite E in *. specialize (SN _ _ eq_refl).
    destruct (chain_split _ _ _ _ CH1) as (m' & D1 & D2). cbn [chain] in D2. pose proof (chain_length _ _ _ D1). rewrite app_length. cbn [length]. lia. }
  exists A1. split.
  { unfold as_of. rewrite ET, find_none_high by assumption. inversion AL1 as [|H' T' A' b l t AL' HB S]; subst; [intros k; reflexivity|].
    cbn [find fst snd]. destruct (X1 _ _ eq_refl) as (X & Y). cbn [fst snd] in X, Y. replace (b_base b <? get_hw r) with true by lia. exact Y. }
  split; [eapply al_good; eassumption|]. split.
  { intros EQ. rewrite EH in CH. destruct (chain_split _ _ _ _ CH) as (m' & D1 & D2). rewrite (chain_fun _ _ _ _ D1 CH1) in D2.
    assert (C = []) as -> by (destruct C as [|b0 C]; [reflexivity|]; pose proof (chain_lt _ _ _ D2 ltac:(discriminate)); lia).
    rewrite app_nil_r in EH. subst H1. apply al_length in AL as LA. apply al_length in AL1 as LB. rewrite ET, app_length in LA.
    assert (T2 = []) as -> by (destruct T2; [reflexivity|cbn [length] in LA; lia]). cbn [app] in ET. subst T1. eapply al_sem; eassumption. }
  unfold replay. rewrite (walk c r CO LS0 H1 T1 A1 AL1 C m (get_hw r) (S (Z.to_nat (get_hw r)))); [|rewrite <- EH; assumption|assumption|assumption|assumption|lia].
  assert (reach (get_log_start r) T1 = true <-> kept r T) as RK.
  { unfold kept. split.
    - intros R. destruct T1 as [|x T']; [inversion AL1; subst; right; left; apply N; reflexivity|]. cbn [reach] in R. apply orb_true_iff in R as [R|R]; [left; lia|].
      right. right. unfold flagged in R. apply existsb_exists in R as (y & I & R). apply andb_true_iff in R as (R1 & R2). destruct y as [[o t] f]. cbn [fst snd] in *. subst f.
      exists o, t. split; [rewrite ET; apply in_app_iff; right; assumption|]. specialize (X3 _ I). cbn [fst] in X3. lia.
    - intros K. destruct T1 as [|x T']; [reflexivity|]. cbn [reach]. apply orb_true_iff.
      assert (0 <= fst (fst x) < get_hw r) as XR by (split; [apply (al_bases _ _ _ AL1 _ CH1 x); left; reflexivity|apply X3; left; reflexivity]).
      destruct K as [K|[K|(o & t & I & K)]]; [left; lia|lia|]. right. unfold flagged. apply existsb_exists. exists (o, t, true).
      rewrite ET in I. apply in_app_iff in I as [I|I]; [specialize (X2 _ I); cbn [fst] in X2; lia|]. split; [assumption|]. cbn [fst snd]. lia. }
  destruct (reach (get_log_start r) T1) eqn:R.
  - left. split; [apply RK; reflexivity|]. cbn [bind]. rewrite <- map_rev. rewrite apply_acts; [rewrite sem_take; reflexivity| |].
    + rewrite Forall_forall. intros a I. apply in_rev, take_acts_in, in_rev in I. pose proof (al_good _ _ _ AL1) as G. rewrite Forall_forall in G. auto.
    + apply Forall_rev, take_acts_clean.
  - right. split; [intros K; apply RK in K; congruence|reflexivity].
Qed.

(** * Appending *)
Lemma append_logged c now only io r l r' ok H : config_ok c -> logged c r H -> l <> [] -> Forall act_good l -> fits r (map enc_act l) ->
  append c now only io r (map enc_act l) = (r', ok) ->
  get_log_start r' = get_log_start r /\
  if ok then exists b, logged c r' (H ++ [b]) /\ b_base b = get_leo r /\ holds b l /\ get_hw r' = (if only then get_leo r' else get_hw r) /\ get_leo r < get_leo r'
  else logged c r' H /\ get_hw r' = get_hw r /\ get_leo r' = get_leo r.
Proof.
  intros CO LG NE G (SZ & RM) AP. unfold append in AP. destruct io; [|inversion AP; subst; split; [reflexivity|]; split; [assumption|split; reflexivity]].
  set (b := to_raw (kv_batch (map enc_act l))) in *. destruct (write_recordset c now r [b] only) as [r1 res] eqn:W.
  pose proof (kv_batch_ok l NE G SZ) as MO. pose proof (to_raw_ok _ MO) as RO. fold b in RO.
  assert (map enc_act l <> []) as NE' by (destruct l; [congruence|discriminate]).
  assert (0 < records_len b) as PB by (unfold b; rewrite kv_len by assumption; destruct l; [congruence|]; cbn [map]; rewrite zlen_cons; pose proof (zlen_nonneg (map enc_act l)); lia).
  destruct LG as (old & L & -> & (s & ls & act & -> & I) & C0 & HW & HO).
  destruct (write_recordset_at _ _ _ _ _ _ _ _ _ _ CO I (Forall_cons _ RO (Forall_nil _)) RM W) as (n & ls' & act' & I' & N & EC & LEO & RS).
  pose proof (log_start_ok _ _ _ _ _ I) as LS. pose proof (log_start_ok _ _ _ _ _ I') as LS'.
  destruct res as [e|]; inversion AP; subst r' ok; (split; [congruence|]).
  - destruct RS as ([|RS] & HWE); [discriminate|]. cbn [length] in RS. replace n with 0%nat in * by lia. cbn [firstn number total] in EC, LEO. rewrite app_nil_r in EC.
    split; [|split; [assumption|lia]]. exists old, (concat ls ++ act). split; [reflexivity|]. split; [exists s, ls', act'; auto|]. split; [rewrite LS', <- LS; assumption|]. split; [lia|assumption].
  - destruct RS as (-> & HWE). cbn [length firstn number total] in EC, LEO. exists (with_base b (get_leo r)).
    split; [|split; [reflexivity|split; [apply kv_holds; assumption|split; [assumption|lia]]]].
    exists old, (concat ls' ++ act'). split; [rewrite EC, <- app_assoc; reflexivity|]. split; [exists s, ls', act'; auto|]. split; [rewrite LS', <- LS; assumption|].
    split; [destruct only; lia|]. apply Forall_app. split; [assumption|]. constructor; [|constructor]. apply honest_base. apply kv_honest; assumption.
Qed.

(** * Histories *)
Definition J (c : config) (s : kv) (T : list snapshot) : Prop :=
  exists H A, logged c (kv_store s) H /\ al H T A /\ same (sem A) (kv_cache s) /\ table_good (kv_cache s) /\ 0 <= get_hw (kv_store s).

Lemma append_one c s T now only io (l : list act) r' t : config_ok c -> J c s T -> l <> [] -> Forall act_good l -> fits (kv_store s) (map enc_act l) ->
  append c now only io (kv_store s) (map enc_act l) = (r', true) -> table_good t -> same (fold_left run_act l (kv_cache s)) t ->
  J c (mkKv t r') ((get_leo (kv_store s), t, existsb is_reset l) :: T).
Proof.
  intros CO (H & A & LG & AL & S & TG & HW) NE G F AP TG' S'.
  destruct (append_logged _ _ _ _ _ _ _ _ _ CO LG NE G F AP) as (_ & b & LG' & EB & HB & HW' & LL).
  assert (same (sem (A ++ l)) t) as ST. { intros k. unfold sem. rewrite fold_left_app. fold (sem A). rewrite (same_runs l _ _ S). apply S'. }
  exists (H ++ [b]), (A ++ l). cbn [kv_store kv_cache]. split; [assumption|]. rewrite <- EB. split; [constructor; assumption|]. split; [assumption|]. split; [assumption|].
  pose proof (chain_le _ _ _ (logged_chain _ _ _ LG)). destruct only; lia.
Qed.
Lemma append_none c s T now only io (l : list act) r' : config_ok c -> J c s T -> l <> [] -> Forall act_good l -> fits (kv_store s) (map enc_act l) ->
  append c now only io (kv_store s) (map enc_act l) = (r', false) -> J c (mkKv (kv_cache s) r') T.
Proof.
  intros CO (H & A & LG & AL & S & TG & HW) NE G F AP.
  destruct (append_logged _ _ _ _ _ _ _ _ _ CO LG NE G F AP) as (_ & LG' & HW' & LL).
  exists H, A. cbn [kv_store kv_cache]. split; [assumption|]. split; [assumption|]. split; [assumption|]. split; [assumption|]. lia.
Qed.
Lemma same_refl t : same t t.
Proof. intros k. reflexivity. Qed.
Lemma puts_good o : Forall entry_good o -> Forall act_good (AReset :: puts o).
Proof. intros F. constructor; [exact Logic.I|]. unfold puts. rewrite Forall_map. eapply Forall_impl; [|exact F]. intros e E. exact E. Qed.
Lemma puts_enc o : map enc_act (AReset :: puts o) = everything o.
Proof. unfold everything, puts. cbn [map enc_act]. rewrite map_map. reflexivity. Qed.

Lemma kruns_J c s T : config_ok c -> kruns c s T -> J c s T.
Proof.
  intros CO. induction 1 as [now|s T now only io k v s' ok R IH KG VG F P|s T now only io k s' R IH KG F P|s T now only io order s' ok R IH PM F P|s T a r R IH OK ME EX|s T now k r t R IH EX HW RP].
  - exists [], []. cbn [kv_store kv_cache]. split; [apply hist_logged; [assumption|constructor]|]. split; [constructor|]. split; [apply same_refl|]. split; [split; constructor|]. cbn. lia.
  - unfold kv_put in P. destruct (append c now only io (kv_store s) [updated k v]) as [r1 [|]] eqn:AP; inversion P; subst; clear P.
    + cbn [kv_cache]. change false with (existsb is_reset [APut k v]). apply (append_one c s T now only io [APut k v] r1); try assumption; try discriminate.
      * constructor; [split; assumption|constructor].
      * destruct IH as (_ & _ & _ & _ & _ & TG & _). apply insert_good; assumption.
      * apply same_refl.
    + apply (append_none c s T now only io [APut k v] r1); try assumption; try discriminate. constructor; [split; assumption|constructor].
  - unfold kv_delete in P. destruct (append c now only io (kv_store s) [deleted k]) as [r1 ok] eqn:AP; inversion P; subst; clear P.
    cbn [kv_cache]. change false with (existsb is_reset [ADel k]). apply (append_one c s T now only io [ADel k] r1); try assumption; try discriminate.
    + constructor; [assumption|constructor].
    + destruct IH as (_ & _ & _ & _ & _ & TG & _). apply erase_good; assumption.
    + apply same_refl.
  - unfold kv_flush in P. fold (everything order) in P. rewrite <- puts_enc in P, F. destruct (append c now only io (kv_store s) (map enc_act (AReset :: puts order))) as [r1 o1] eqn:AP.
    pose proof IH as (_ & _ & _ & _ & _ & (ND & TG) & _).
    assert (Forall act_good (AReset :: puts order)) as AG.
    { apply puts_good. rewrite Forall_forall in *. intros x I. apply TG. eapply Permutation_in; eassumption. }
    inversion P; subst; clear P. destruct ok.
    + cbn [kv_cache]. change true with (existsb is_reset (AReset :: puts order)) at 1. apply (append_one c s T now only io (AReset :: puts order) r1); try assumption; try discriminate.
      * split; assumption.
      * intros k. rewrite <- (flush_same order (kv_cache s) PM ND k). reflexivity.
    + apply (append_none c s T now only io (AReset :: puts order) r1); try assumption; discriminate.
  - destruct IH as (H & A & LG & AL & S & TG & HW).
    assert (earlier (kv_store s) a) as EA by (destruct a; cbn [meanwhile earlier live] in *; tauto).
    assert (stored_by a (kv_store s) r []) as ST.
    { destruct LG as (old & L & -> & I & C0 & HW1 & HO). destruct (ReplicaProofs.step _ _ _ _ _ CO I OK EX) as (L' & I' & dr & kp & nw & EL & EL' & C1 & C2 & AD & _).
      destruct a; cbn [meanwhile] in ME; try contradiction; cbn [added_by] in AD; subst nw; split; try reflexivity; assumption. }
    destruct (logged_step _ _ _ _ _ _ CO LG OK EA EX ST) as (LG' & _ & _ & HW'). rewrite app_nil_r in LG'.
    exists H, A. cbn [kv_store kv_cache]. split; [assumption|]. split; [assumption|]. split; [assumption|]. split; [assumption|].
    assert (live (kv_store s) a) as LV by (destruct a; cbn [meanwhile live] in *; tauto). specialize (HW' LV). lia.
  - destruct IH as (H & A & LG & AL & S & TG & HW0).
    assert (stored_by (Restart now k) (kv_store s) r []) as ST.
    { destruct LG as (old & L & -> & I & C0 & HW1 & HO). destruct (ReplicaProofs.step _ _ _ _ _ CO I (Logic.I : op_ok c (kv_store s) (Restart now k)) EX) as (L' & I' & dr & kp & nw & EL & EL' & C1 & C2 & AD & _).
      cbn [added_by] in AD. subst nw. split; [assumption|reflexivity]. }
    destruct (logged_step _ _ _ (Restart now k) _ _ CO LG Logic.I Logic.I EX ST) as (LG' & LL & _ & _). rewrite app_nil_r in LG'.
    assert (0 <= get_hw r) as HW1. { pose proof (chain_le _ _ _ (logged_chain _ _ _ LG')). lia. }
    destruct (reload_is c r H T A CO LG' AL HW1) as (A1 & _ & G1 & EQ & [(_ & R1)|(_ & R1)]); [|congruence].
    assert (t = sem A1) as -> by congruence. specialize (EQ HW).
    exists H, A. cbn [kv_store kv_cache]. split; [assumption|]. split; [assumption|]. split; [intros x; symmetry; apply EQ|]. split; [|assumption].
    apply runs_good; [split; constructor|assumption].
Qed.
