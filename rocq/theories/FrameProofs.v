From Verif Require Import Base ListFacts WireModel WireSpec WireProofs RecordModel RecordSpec RecordProofs FrameModel FrameSpec.

Lemma frame_dec_app buf more : match frame_dec buf with
  | More => True
  | Crash => frame_dec (buf ++ more) = Crash
  | Frame f r => frame_dec (buf ++ more) = Frame f (r ++ more)
  end.
Proof.
  unfold frame_dec. destruct (zlen buf <? 4) eqn:E; [exact I|].
  rewrite zlen_app. pose proof (zlen_nonneg more).
  replace (zlen buf + zlen more <? 4) with false by lia.
  assert (exists v r, c_dec i32_codec buf = Ok (v, r) /\ c_dec i32_codec (buf ++ more) = Ok (v, r ++ more)) as (v & r & -> & ->).
  { cbn [c_dec i32_codec s_codec]. unfold zlen in E.
    destruct buf as [|a [|b [|c [|d t]]]]; try (cbn in E; lia).
    eexists _, t. split; reflexivity. }
  set (n := as_usize _). destruct (n <=? zlen buf) eqn:E1; [|exact I].
  replace (n <=? zlen buf + zlen more) with true by lia.
  destruct (n <? 4) eqn:E2; [reflexivity|].
  rewrite ztake_app_le by lia. f_equal.
  destruct (Z.eq_dec n (zlen buf)) as [->|Hne].
  - rewrite zdrop_app_ge by lia. rewrite Z.sub_diag, zdrop_neg by lia. rewrite zdrop_all by lia. reflexivity.
  - rewrite zdrop_app_le by lia. reflexivity.
Qed.

Lemma frame_dec_shorter buf f r : frame_dec buf = Frame f r -> (length r < length buf)%nat.
Proof.
  unfold frame_dec. destruct (zlen buf <? 4) eqn:E; [discriminate|].
  destruct (c_dec i32_codec buf) as [[v t]|]; [|discriminate].
  set (n := as_usize _). destruct (n <=? zlen buf) eqn:E1; [|discriminate].
  destruct (n <? 4) eqn:E2; [discriminate|]. intros [= _ <-].
  pose proof (zlen_zdrop n buf) as Z1. unfold zlen in *. lia.
Qed.

(** Enough fuel: the result does not depend on it. *)
Lemma drain_fuel n : forall buf, (length buf <= n)%nat -> forall m, (length buf <= m)%nat -> drain n buf = drain m buf.
Proof.
  induction n as [|n IH]; intros buf Hn m Hm.
  - destruct buf; [|cbn in Hn; lia]. destruct m; reflexivity.
  - destruct m as [|m].
    + destruct buf; [reflexivity|cbn in Hm; lia].
    + cbn [drain]. destruct (frame_dec buf) as [|f r|] eqn:E; try reflexivity.
      apply frame_dec_shorter in E. rewrite (IH r ltac:(lia) m ltac:(lia)). reflexivity.
Qed.
Definition drained (buf : bytes) := drain (length buf) buf.
Lemma drained_step buf : drained buf = match frame_dec buf with
  | More => ([], Waiting buf)
  | Crash => ([], Crashed)
  | Frame f r => let (fs, c) := drained r in (f :: fs, c) end.
Proof.
  unfold drained. destruct (length buf) as [|n] eqn:L.
  - destruct buf; [reflexivity|discriminate].
  - cbn [drain]. destruct (frame_dec buf) as [|f r|] eqn:E; try reflexivity.
    apply frame_dec_shorter in E. rewrite (drain_fuel n r ltac:(lia) (length r) ltac:(lia)). reflexivity.
Qed.

Lemma drained_app n : forall buf more, (length buf <= n)%nat ->
  drained (buf ++ more) =
  let (fs, c) := drained buf in
  let (fs', c') := on_read c more in (fs ++ fs', c').
Proof.
  induction n as [|n IH]; intros buf more Hn.
  - destruct buf; [|cbn in Hn; lia]. cbn. change (drain (length more) more) with (drained more).
    destruct (drained more). reflexivity.
  - rewrite (drained_step buf). pose proof (frame_dec_app buf more) as A.
    destruct (frame_dec buf) as [|f r|] eqn:E.
    + cbn [on_read]. fold (drained (buf ++ more)). destruct (drained (buf ++ more)). reflexivity.
    + rewrite drained_step, A. apply frame_dec_shorter in E. rewrite (IH r more) by lia.
      destruct (drained r) as [fs c]. destruct (on_read c more). reflexivity.
    + rewrite drained_step, A. reflexivity.
Qed.

(** However the bytes are split, the receiver ends as if they came at once. *)
Lemma receive_drained chunks : forall buf fs0 c0, drained buf = (fs0, c0) ->
  receive c0 chunks = (skipn (length fs0) (fst (drained (buf ++ concat chunks))), snd (drained (buf ++ concat chunks)))
  /\ firstn (length fs0) (fst (drained (buf ++ concat chunks))) = fs0.
Proof.
  induction chunks as [|ch t IH]; intros buf fs0 c0 E; cbn [receive concat].
  - rewrite app_nil_r, E. cbn [fst snd]. rewrite skipn_all, firstn_all. auto.
  - pose proof (drained_app (length buf) buf ch (le_n _)) as A. rewrite E in A.
    destruct (on_read c0 ch) as [fs1 c1]. specialize (IH (buf ++ ch) (fs0 ++ fs1) c1 A).
    rewrite <- app_assoc in IH. destruct IH as [IH1 IH2]. rewrite IH1.
    set (all := drained (buf ++ ch ++ concat t)) in *.
    assert (fs0 ++ fs1 ++ skipn (length (fs0 ++ fs1)) (fst all) = fst all) as F.
    { rewrite app_assoc, <- IH2 at 1. apply firstn_skipn. }
    split.
    + f_equal. rewrite <- F at 2. symmetry. apply skipn_app_n. reflexivity.
    + rewrite <- F. rewrite firstn_app_exact. reflexivity.
Qed.
Lemma receive_any_split chunks : receive (Waiting []) chunks = drained (concat chunks).
Proof.
  destruct (receive_drained chunks [] [] (Waiting []) eq_refl) as [E _]. rewrite E. cbn [app skipn length].
  destruct (drained (concat chunks)). reflexivity.
Qed.
Lemma receive_split_independent c1 c2 : concat c1 = concat c2 -> receive (Waiting []) c1 = receive (Waiting []) c2.
Proof. intros H. rewrite !receive_any_split, H. reflexivity. Qed.

(** A well-formed frame in front of the buffer. *)
Lemma framed_zlen f : zlen (framed f) = 4 + zlen f.
Proof. unfold framed. rewrite zlen_app. unfold zlen at 1. rewrite be_enc_length. lia. Qed.
Lemma frame_dec_framed f rest : frame_ok f -> frame_dec (framed f ++ rest) = Frame f rest.
Proof.
  intros [_ H]. pose proof (zlen_nonneg f) as H0. pose proof (zlen_nonneg rest) as H1.
  unfold frame_dec. rewrite zlen_app, framed_zlen. replace (4 + zlen f + zlen rest <? 4) with false by lia.
  unfold framed at 1. rewrite <- app_assoc. unfold i32_codec. destruct (s_lawful 4 ltac:(lia)) as (RR & _).
  change (be_enc 4 (zlen f)) with (c_enc (s_codec 4) (zlen f)). change (2 ^ 31) with 2147483648 in H.
  rewrite RR by (unfold in_s; change (2 ^ (8 * Z.of_nat 4 - 1)) with 2147483648; lia).
  rewrite wrap_s_id by (try lia; unfold in_s; change (2 ^ (32 - 1)) with 2147483648; lia).
  rewrite as_usize_id by (change (2 ^ 63) with 9223372036854775808; lia).
  replace (zlen f + 4 <=? 4 + zlen f + zlen rest) with true by lia.
  replace (zlen f + 4 <? 4) with false by lia.
  replace (zlen f + 4) with (zlen (framed f)) by (rewrite framed_zlen; lia).
  rewrite ztake_app_exact, zdrop_app_exact. unfold framed.
  replace 4 with (zlen (be_enc 4 (zlen f))) by (unfold zlen at 1; rewrite be_enc_length; reflexivity).
  rewrite zdrop_app_exact. reflexivity.
Qed.
Lemma frame_dec_partial p : partial_frame p -> frame_dec p = More.
Proof.
  intros (f & k & [_ H] & Hk & ->). pose proof (zlen_nonneg f) as H0.
  assert (zlen (ztake k (framed f)) = k) as Zk by (rewrite zlen_ztake; lia).
  unfold frame_dec. rewrite Zk. destruct (k <? 4) eqn:E; [reflexivity|].
  unfold framed at 1. rewrite framed_zlen in Hk.
  assert (zlen (be_enc 4 (zlen f)) = 4) as Z4 by (unfold zlen at 1; rewrite be_enc_length; reflexivity).
  rewrite ztake_app_ge by lia.
  unfold i32_codec. destruct (s_lawful 4 ltac:(lia)) as (RR & _).
  change (be_enc 4 (zlen f)) with (c_enc (s_codec 4) (zlen f)). change (2 ^ 31) with 2147483648 in H.
  rewrite RR by (unfold in_s; change (2 ^ (8 * Z.of_nat 4 - 1)) with 2147483648; lia).
  rewrite wrap_s_id by (try lia; unfold in_s; change (2 ^ (32 - 1)) with 2147483648; lia).
  rewrite as_usize_id by (change (2 ^ 63) with 9223372036854775808; lia).
  replace (zlen f + 4 <=? k) with false by lia. reflexivity.
Qed.
Lemma drained_frames fs p : Forall frame_ok fs -> partial_frame p ->
  drained (flat_map framed fs ++ p) = (fs, Waiting p).
Proof.
  intros H Hp. induction H as [|f fs Hf Hfs IH]; cbn [flat_map app].
  - rewrite drained_step, (frame_dec_partial p Hp). reflexivity.
  - rewrite drained_step, <- app_assoc, frame_dec_framed by assumption. rewrite IH. reflexivity.
Qed.
Lemma frames_arrive fs p chunks : Forall frame_ok fs -> partial_frame p ->
  concat chunks = flat_map framed fs ++ p -> receive (Waiting []) chunks = (fs, Waiting p).
Proof. intros H Hp E. rewrite receive_any_split, E. apply drained_frames; assumption. Qed.

(** Frames written by the encoder for a codec whose announced size is right. *)
Lemma frame_enc_framed {A} (c : codec A) (ok : A -> Prop) a : size_exact c ok -> ok a ->
  zlen (c_enc c a) < 2 ^ 31 -> frame_enc c a = framed (c_enc c a).
Proof.
  intros S H Hl. unfold frame_enc, framed. rewrite S by assumption. pose proof (zlen_nonneg (c_enc c a)).
  rewrite wrap_s_id by (try lia; unfold in_s; change (2 ^ (32 - 1)) with (2 ^ 31); lia). reflexivity.
Qed.
Lemma values_arrive {A} (c : codec A) (ok : A -> Prop) l chunks : size_exact c ok -> emits_bytes c ok ->
  Forall (fun a => ok a /\ zlen (c_enc c a) < 2 ^ 31 - 4) l ->
  concat chunks = flat_map (frame_enc c) l -> receive (Waiting []) chunks = (map (c_enc c) l, Waiting []).
Proof.
  intros S B H E. rewrite receive_any_split, E. clear E chunks.
  induction H as [|a l [Ha Hl] H IH]; [reflexivity|]. cbn [flat_map map].
  rewrite (frame_enc_framed c ok a S Ha) by lia.
  rewrite drained_step, frame_dec_framed, IH by (split; [apply B; exact Ha|exact Hl]). reflexivity.
Qed.

(** Hostile length prefixes: exactly -4..-1 crash. *)
Lemma hostile_refuted : exists chunks, Forall is_bytes chunks /\ receive (Waiting []) chunks = ([], Crashed).
Proof.
  exists [[255; 255; 255]; [255]]. split; [repeat constructor; unfold is_byte; lia|vm_compute; reflexivity].
Qed.
Lemma hostile_exact len rest : in_s 32 len -> is_bytes rest -> zlen rest < 2 ^ 31 ->
  (frame_dec (be_enc 4 len ++ rest) = Crash <-> -4 <= len < 0).
Proof.
  intros H HB HR. pose proof (zlen_nonneg rest) as H1. unfold frame_dec.
  assert (zlen (be_enc 4 len) = 4) as Z4 by (unfold zlen at 1; rewrite be_enc_length; reflexivity).
  rewrite zlen_app, Z4. replace (4 + zlen rest <? 4) with false by lia.
  unfold i32_codec. destruct (s_lawful 4 ltac:(lia)) as (RR & _).
  change (be_enc 4 len) with (c_enc (s_codec 4) len). rewrite RR by exact H.
  unfold in_s in H. unfold wrap_s, as_usize. change (2 ^ (32 - 1)) with 2147483648 in *. change (2 ^ 31) with 2147483648 in *.
  change (2 ^ 32) with 4294967296 in *. change (2 ^ 64) with 18446744073709551616.
  set (n := _ mod 18446744073709551616).
  assert (Z : n = (if len + 4 <? 0 then len + 4 + 18446744073709551616
                   else if 2147483648 <=? len + 4 then len + 4 - 4294967296 + 18446744073709551616 else len + 4)).
  { unfold n. destruct (len + 4 <? 0) eqn:?; destruct (2147483648 <=? len + 4) eqn:?; lia. }
  clearbody n. destruct (n <=? 4 + zlen rest) eqn:E1; [destruct (n <? 4) eqn:E2|];
    (split; [intros X; first [discriminate X | clear X] | intros X; first [reflexivity | exfalso]]);
    destruct (len + 4 <? 0) eqn:?; destruct (2147483648 <=? len + 4) eqn:?; lia.
Qed.
(** and a length below -4 or just below 2^31 makes the receiver wait forever *)
Lemma hostile_stall len rest : in_s 32 len -> zlen rest < 2 ^ 31 -> (len < -4 \/ 2 ^ 31 - 4 <= len) ->
  frame_dec (be_enc 4 len ++ rest) = More.
Proof.
  intros H HR HL. pose proof (zlen_nonneg rest) as H1. unfold frame_dec.
  assert (zlen (be_enc 4 len) = 4) as Z4 by (unfold zlen at 1; rewrite be_enc_length; reflexivity).
  rewrite zlen_app, Z4. replace (4 + zlen rest <? 4) with false by lia.
  unfold i32_codec. destruct (s_lawful 4 ltac:(lia)) as (RR & _).
  change (be_enc 4 len) with (c_enc (s_codec 4) len). rewrite RR by exact H.
  unfold in_s in H. unfold wrap_s, as_usize. change (2 ^ (32 - 1)) with 2147483648 in *. change (2 ^ 31) with 2147483648 in *.
  change (2 ^ 32) with 4294967296 in *. change (2 ^ 64) with 18446744073709551616.
  set (n := _ mod 18446744073709551616).
  replace (n <=? 4 + zlen rest) with false; [reflexivity|]. unfold n. lia.
Qed.
(** a value whose announced size is wrong breaks the framing *)
Lemma schema_batch_breaks_refuted : exists b chunks fs c, mem_batch_ok b
  /\ concat chunks = frame_enc (batch_codec memory_codec []) b
  /\ receive (Waiting []) chunks = (fs, c) /\ fs <> [batch_enc memory_codec b].
Proof.
  exists demo_schema_batch, [frame_enc (batch_codec memory_codec []) demo_schema_batch].
  do 2 eexists. split; [apply demo_schema_batch_ok|]. split; [cbn [concat]; apply app_nil_r|].
  split; [vm_compute; reflexivity|]. vm_compute. discriminate.
Qed.
