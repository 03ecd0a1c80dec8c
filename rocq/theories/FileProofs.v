From Verif Require Import Base ListFacts WireModel WireSpec WireProofs RecordModel RecordSpec RecordProofs
  FrameModel FrameSpec FrameProofs VersionModel VersionProofs FileModel FileSpec.

(** * Writers append bytes *)

Section Writers.
  Context (st : files).
  Definition flat (w : wstate) : bytes := write_store_values st (snd w) ++ fst w.
  Definition writes (f : writer) (bs : bytes) : Prop := forall w, flat (f w) = flat w ++ bs.

  Lemma wsv_app a b : write_store_values st (a ++ b) = write_store_values st a ++ write_store_values st b.
  Proof. apply flat_map_app. Qed.
  Lemma put_writes bs : writes (put bs) bs.
  Proof. intros [b d]. unfold flat, put. cbn [fst snd]. apply app_assoc. Qed.
  Lemma also_writes f g a b : writes f a -> writes g b -> writes (f >> g) (a ++ b).
  Proof. intros F G w. unfold also. rewrite G, F, app_assoc. reflexivity. Qed.
  Lemma writes_eq f a b : writes f a -> a = b -> writes f b.
  Proof. intros H <-. exact H. Qed.

  Lemma contents_zlen s : held st s -> zlen (contents st s) = f_len s.
  Proof.
    intros (H1 & H2 & H3 & _). unfold contents. rewrite zlen_ztake, zlen_zdrop. lia.
  Qed.
  Lemma contents_bytes s : held st s -> is_bytes (contents st s).
  Proof.
    intros (_ & _ & _ & H). unfold contents, is_bytes in *. rewrite ztake_firstn, zdrop_skipn.
    apply Forall_firstn. rewrite <- (firstn_skipn (Z.to_nat (f_pos s)) (st (f_fd s))) in H.
    apply Forall_app in H. apply H.
  Qed.

  Definition content_codec : codec bytes :=
    {| c_enc c := be_enc 4 (wrap_s 32 (zlen c)) ++ c; c_dec _ := Err Panic; c_size c := zlen c + 4 |}.

  Lemma records_writes s : held st s -> writes (file_records s) (c_enc content_codec (contents st s)).
  Proof.
    intros H [b d]. unfold flat, file_records. cbn [fst snd c_enc content_codec].
    rewrite wsv_app, app_nil_r, contents_zlen by exact H. rewrite <- !app_assoc. f_equal.
    cbn [write_store_values flat_map]. rewrite app_nil_r, <- app_assoc. do 2 f_equal.
    destruct (f_len s =? 0) eqn:E; [|reflexivity].
    pose proof (contents_zlen s H). destruct (contents st s); [reflexivity|].
    rewrite zlen_cons in *. pose proof (zlen_nonneg b0). lia.
  Qed.

  Lemma fold_writes {A B} (f : A -> writer) (g : A -> B) (c : codec B) l :
    Forall (fun a => writes (f a) (c_enc c (g a))) l ->
    writes (fun w => fold_left (fun w a => f a w) l w) (flat_map (c_enc c) (map g l)).
  Proof.
    induction 1 as [|a l Ha Hl IH]; intros w; cbn [fold_left map flat_map]; [symmetry; apply app_nil_r|].
    rewrite IH, Ha, app_assoc. reflexivity.
  Qed.
  Lemma vec_writes {A B} (f : A -> writer) (g : A -> B) (c : codec B) l :
    zlen l < 2 ^ 31 -> Forall (fun a => writes (f a) (c_enc c (g a))) l ->
    writes (file_vec f l) (c_enc (vec_codec c) (map g l)).
  Proof.
    intros Hz H. unfold file_vec. pose proof (zlen_nonneg l).
    eapply writes_eq; [apply also_writes; [apply put_writes|apply (fold_writes f g c l H)]|].
    cbn [c_enc vec_codec]. unfold vec_enc. f_equal. f_equal.
    rewrite wrap_s_id by (try lia; unfold in_s; change (2 ^ (32 - 1)) with (2 ^ 31); lia).
    assert (zlen (map g l) = zlen l) as -> by (unfold zlen; rewrite map_length; reflexivity).
    rewrite wrap_u_id; [reflexivity|]. unfold in_u. change (2 ^ 32) with 4294967296. change (2 ^ 31) with 2147483648 in Hz. lia.
  Qed.

  Lemma sent_writes msg bs : writes msg bs -> encode_file_slices st msg = bs.
  Proof.
    intros H. unfold encode_file_slices. specialize (H ([], [])). destruct (msg ([], [])) as [b d].
    unfold flat in H. cbn [fst snd] in H. rewrite wsv_app. cbn [write_store_values flat_map] in *.
    rewrite app_nil_r. exact H.
  Qed.
End Writers.

(** * Reading a record set back *)

Lemma take_cases n bs : take_bytes n bs = Err Eof \/ exists h, take_bytes n bs = Ok (h, skipn n bs) /\ (n <= length bs)%nat.
Proof.
  destruct (Nat.lt_ge_cases (length bs) n) as [H|H].
  - left. apply take_bytes_short. exact H.
  - right. exists (firstn n bs). split; [|exact H].
    rewrite <- (firstn_skipn n bs) at 1. apply take_bytes_app. rewrite firstn_length. lia.
Qed.
Lemma s_cases n bs : c_dec (s_codec n) bs = Err Eof \/ exists x, c_dec (s_codec n) bs = Ok (x, skipn n bs) /\ (n <= length bs)%nat.
Proof.
  cbn [c_dec s_codec]. destruct (take_cases n bs) as [->|(h & -> & H)]; [left; reflexivity|right]. cbn [bind]. eauto.
Qed.
Lemma u_cases n bs : c_dec (u_codec n) bs = Err Eof \/ exists x, c_dec (u_codec n) bs = Ok (x, skipn n bs) /\ (n <= length bs)%nat.
Proof.
  cbn [c_dec u_codec]. destruct (take_cases n bs) as [->|(h & -> & H)]; [left; reflexivity|right]. cbn [bind]. eauto.
Qed.

Ltac int_step :=
  match goal with
  | |- context [c_dec (s_codec ?n) ?bs] => destruct (s_cases n bs) as [->|(? & -> & ?)]
  | |- context [c_dec (u_codec ?n) ?bs] => destruct (u_cases n bs) as [->|(? & -> & ?)]
  end; cbn [bind]; [left; reflexivity|].

Lemma header_cases bs : header_dec bs = Err Eof \/ exists x r, header_dec bs = Ok (x, r) /\ (length r < length bs)%nat.
Proof.
  unfold header_dec, i64_codec, i32_codec, i8_codec, u32_codec, i16_codec.
  do 12 int_step. right. do 2 eexists. split; [reflexivity|]. rewrite !skipn_length in *. lia.
Qed.
Lemma batch_cases bs : batch_dec raw_codec [] bs = Err Eof
  \/ exists b r, batch_dec raw_codec [] bs = Ok (b, r) /\ (length r < length bs)%nat.
Proof.
  unfold batch_dec. destruct (header_cases bs) as [->|([[base len] h] & r & -> & H)]; [left; reflexivity|].
  cbn [bind].
  assert (forall n r, exists rs r', records_dec raw_codec [] n r = Ok (rs, r') /\ (length r' <= length r)%nat) as RD.
  { intros n r0. unfold records_dec. destruct (ztake n r0) eqn:E.
    - exists [], r0. auto.
    - cbn [c_dec raw_codec bind app]. do 2 eexists. split; [reflexivity|]. rewrite zdrop_skipn, skipn_length. lia. }
  destruct (has_schema h).
  - unfold u32_codec. int_step.
    match goal with |- context [records_dec _ _ ?n ?r] => destruct (RD n r) as (rs & r' & -> & Hr) end.
    cbn [bind]. right. do 2 eexists. split; [reflexivity|]. rewrite skipn_length in Hr. lia.
  - match goal with |- context [records_dec _ _ ?n ?r] => destruct (RD n r) as (rs & r' & -> & Hr) end.
    cbn [bind]. right. do 2 eexists. split; [reflexivity|]. lia.
Qed.

Lemma loops n : forall buf, (length buf <= n)%nat -> exists l lo fin, forall m, (length buf <= m)%nat ->
  set_loop m buf = Ok (l, lo) /\ rset_loop raw_codec [] m buf = Ok (l, fin).
Proof.
  induction n as [|n IH]; intros buf H.
  - destruct buf; [|cbn in H; lia]. exists [], [], true. intros [|m] _; auto.
  - destruct buf as [|x t]; [exists [], [], true; intros [|m] _; auto|].
    set (buf := x :: t) in *. destruct (batch_cases buf) as [E|(b & r & E & Hr)].
    + exists [], (unread header_widths buf), false. intros [|m] Hm; [cbn in Hm; lia|].
      cbn [set_loop rset_loop]. unfold buf at 1 3. fold buf. rewrite E. auto.
    + destruct (IH r ltac:(lia)) as (l & lo & fin & L). exists (b :: l), lo, fin.
      intros [|m] Hm; [cbn in Hm; lia|]. destruct (L m ltac:(lia)) as [L1 L2].
      cbn [set_loop rset_loop]. unfold buf at 1 3. fold buf. rewrite E, L1, L2. auto.
Qed.

Definition leftover (c : bytes) : bytes :=
  match set_loop (length c) c with Ok (_, lo) => lo | Err _ => [] end.

Lemma i32_dec n rest : 0 <= n < 2 ^ 31 -> c_dec i32_codec (be_enc 4 n ++ rest) = Ok (n, rest).
Proof.
  intros H. change (be_enc 4 n) with (c_enc i32_codec n). unfold i32_codec.
  destruct (s_lawful 4 ltac:(lia)) as (R & _). apply R. unfold in_s. change (2 ^ (8 * Z.of_nat 4 - 1)) with (2 ^ 31). lia.
Qed.

Lemma set_reads c rest : zlen c < 2 ^ 31 ->
  set_dec (c_enc content_codec c ++ rest) = Ok (decoded c, leftover c ++ rest).
Proof.
  intros H. pose proof (zlen_nonneg c) as H0. cbn [c_enc content_codec].
  rewrite wrap_s_id by (try lia; unfold in_s; change (2 ^ (32 - 1)) with (2 ^ 31); lia).
  destruct (loops (length c) c ltac:(lia)) as (l & lo & fin & L).
  assert (as_usize (zlen c) = zlen c) as U.
  { apply as_usize_id. change (2 ^ 63) with 9223372036854775808. change (2 ^ 31) with 2147483648 in H. lia. }
  assert (decoded c = l) as ->.
  { unfold decoded, rset_dec. rewrite i32_dec by lia. cbn [bind]. rewrite U.
    replace (zlen c <? zlen c) with false by lia. rewrite ztake_all by lia.
    destruct (L (length c) ltac:(lia)) as [_ ->]. reflexivity. }
  assert (leftover c = lo) as -> by (unfold leftover; destruct (L (length c) ltac:(lia)) as [-> _]; reflexivity).
  unfold set_dec. rewrite <- app_assoc, i32_dec by lia. cbn [bind]. rewrite U, zlen_app.
  pose proof (zlen_nonneg rest). replace (zlen c + zlen rest <? zlen c) with false by lia.
  rewrite ztake_app_exact, zdrop_app_exact.
  destruct (L (length (c ++ rest)) ltac:(rewrite app_length; lia)) as [-> _]. reflexivity.
Qed.

(** ** What a cut leaves unread *)

Fixpoint zunread (ws : list Z) (n : Z) : Z :=
  match ws with [] => n | w :: t => if n <? w then n else zunread t (n - w) end.
Lemma unread_zlen ws : Forall (fun w => 0 <= w) ws -> forall bs, zlen (unread ws bs) = zunread ws (zlen bs).
Proof.
  induction 1 as [|w t Hw Ht IH]; intros bs; cbn [unread zunread]; [reflexivity|].
  destruct (zlen bs <? w) eqn:E; [reflexivity|]. rewrite IH, zlen_zdrop.
  f_equal. lia.
Qed.
Lemma widths_nonneg : Forall (fun w => 0 <= w) header_widths.
Proof. repeat constructor; lia. Qed.

Definition in_ends (k : Z) : bool := existsb (Z.eqb k) field_ends.
Lemma in_ends_spec k : in_ends k = true <-> In k field_ends.
Proof.
  unfold in_ends. rewrite existsb_exists. split.
  - intros (x & H & E). apply Z.eqb_eq in E. subst. exact H.
  - intros H. exists k. split; [exact H|apply Z.eqb_refl].
Qed.
Lemma zunread_short k : 0 <= k < 61 ->
  0 <= zunread header_widths k <= 7 /\ (zunread header_widths k = 0 <-> In k field_ends).
Proof.
  intros H. rewrite <- in_ends_spec.
  assert (zforallb 61 (fun k => (0 <=? zunread header_widths k) && (zunread header_widths k <=? 7)
            && Bool.eqb (zunread header_widths k =? 0) (in_ends k)) = true) as Q by (vm_compute; reflexivity).
  pose proof (zforallb_spec _ _ Q k ltac:(lia)) as R. cbv beta in R.
  rewrite !Bool.andb_true_iff in R. destruct R as [[R1 R2] R3]. apply Bool.eqb_prop in R3. rewrite <- R3. lia.
Qed.

Lemma set_loop_cut l : Forall raw_batch_ok l -> forall k fuel,
  0 <= k <= zlen (flat_map (batch_enc raw_codec) l) -> (Z.to_nat k <= fuel)%nat ->
  exists got lo, set_loop fuel (ztake k (flat_map (batch_enc raw_codec) l)) = Ok (got, lo)
    /\ zlen lo <= 7 /\ (lo = [] <-> clean_cut l k).
Proof.
  induction l as [|b l IH]; intros H k fuel Hk Hf.
  - assert (k = 0) as -> by (cbn in Hk; lia). exists [], []. cbn [flat_map ztake clean_cut].
    split; [destruct fuel; reflexivity|]. split; [unfold zlen; cbn; lia|]. split; [lia|reflexivity].
  - apply Forall_cons_iff in H as [Hb Hl]. cbn [flat_map clean_cut] in *. rewrite zlen_app in Hk.
    pose proof (batch_enc_longer raw_codec b) as Pos.
    pose proof (zlen_nonneg (flat_map (batch_enc raw_codec) l)) as Hn.
    destruct (zlen (batch_enc raw_codec b) <=? k) eqn:E1.
    + rewrite ztake_app_ge by lia. destruct fuel as [|f]; [lia|].
      destruct (IH Hl (k - zlen (batch_enc raw_codec b)) f ltac:(lia) ltac:(lia)) as (got & lo & E & R).
      exists (received raw_codec b :: got), lo. split; [|exact R].
      cbn [set_loop]. destruct (batch_enc raw_codec b ++ ztake (k - zlen (batch_enc raw_codec b)) (flat_map (batch_enc raw_codec) l)) as [|x t] eqn:EX.
      { apply (f_equal zlen) in EX. rewrite zlen_app, zlen_nil in EX.
        pose proof (zlen_nonneg (ztake (k - zlen (batch_enc raw_codec b)) (flat_map (batch_enc raw_codec) l))). lia. }
      rewrite <- EX. rewrite (batch_dec_full raw_codec [] is_bytes raw_dec_full raw_size raw_bytes raw_empty b _ Hb).
      rewrite E. reflexivity.
    + rewrite ztake_app_le by lia. destruct (Z.eq_dec k 0) as [->|Hk0].
      { rewrite ztake_neg by lia. exists [], []. split; [destruct fuel; reflexivity|].
        split; [unfold zlen; cbn; lia|]. split; [intros _; left; left; reflexivity|reflexivity]. }
      destruct fuel as [|f]; [lia|]. cbn [set_loop].
      assert (zlen (ztake k (batch_enc raw_codec b)) = k) as Zk by (rewrite zlen_ztake; lia).
      destruct (ztake k (batch_enc raw_codec b)) as [|x t] eqn:EX; [rewrite zlen_nil in Zk; lia|]. rewrite <- EX in *.
      rewrite (batch_dec_cut raw_codec [] is_bytes raw_dec_full raw_size raw_bytes raw_empty b k Hb ltac:(lia)).
      unfold front_len. rewrite schema_zlen.
      destruct (k <? 57 + (if has_schema (b_hdr b) then 4 else 0)) eqn:E2.
      * exists [], (unread header_widths (ztake k (batch_enc raw_codec b))). split; [reflexivity|].
        pose proof (unread_zlen header_widths widths_nonneg (ztake k (batch_enc raw_codec b))) as U. rewrite Zk in U.
        destruct (zunread_short k) as [U1 U2]; [destruct (has_schema (b_hdr b)); lia|].
        split; [lia|]. rewrite <- U2. split.
        -- intros N. rewrite N, zlen_nil in U. left. lia.
        -- intros [N|N]; [|lia]. destruct (unread header_widths (ztake k (batch_enc raw_codec b))) as [|u0 us]; [reflexivity|].
           rewrite zlen_cons in U. pose proof (zlen_nonneg us). lia.
      * match goal with |- context [if k =? ?n then _ else _] => destruct (k =? n) end;
          cbn [c_dec raw_codec bind]; eexists [_], []; (split; [destruct f; reflexivity|]);
          (split; [unfold zlen; cbn; lia|]); (split; [intros _; right; lia|reflexivity]).
Qed.

Lemma cut_zlen c l k : cut_at c l k -> zlen c = k.
Proof. intros (_ & H & _ & ->). rewrite zlen_ztake. lia. Qed.
Lemma cut_leftover c l k : cut_at c l k -> zlen (leftover c) <= 7 /\ (leftover c = [] <-> clean_cut l k).
Proof.
  intros C. pose proof (cut_zlen _ _ _ C) as Z1. destruct C as (H & Hk & H31 & Ec).
  assert (Z.to_nat k <= length c)%nat as Hf by (unfold zlen in Z1; lia).
  destruct (set_loop_cut l H k (length c) Hk Hf) as (got & lo & E & R).
  unfold leftover. rewrite Ec at 2 4. rewrite E. exact R.
Qed.
Lemma cut_left c l k rest : cut_at c l k -> exists got lo,
  set_dec (be_enc 4 k ++ c ++ rest) = Ok (got, lo ++ rest) /\ got = decoded c
  /\ zlen lo <= 7 /\ (lo = [] <-> clean_cut l k).
Proof.
  intros C. pose proof (cut_zlen _ _ _ C) as Z1. pose proof C as (_ & Hk & H31 & _).
  exists (decoded c), (leftover c). split; [|split; [reflexivity|exact (cut_leftover c l k C)]].
  rewrite <- (set_reads c rest) by lia. cbn [c_enc content_codec]. rewrite Z1.
  rewrite wrap_s_id by (try lia; unfold in_s; change (2 ^ (32 - 1)) with (2 ^ 31); lia). rewrite <- app_assoc. reflexivity.
Qed.
