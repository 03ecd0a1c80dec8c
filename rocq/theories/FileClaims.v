From Verif Require Import Base ListFacts WireModel WireSpec WireProofs RecordModel RecordSpec RecordProofs
  FrameModel FrameSpec FrameProofs VersionModel VersionProofs FileModel FileSpec FileProofs.

Ltac alsos := repeat match goal with |- writes _ (also _ _) _ => eapply also_writes end.

Lemma fld_on {A} v min (d : A) c : min <= v -> fld v min d c = c.
Proof. intros H. unfold fld. replace (min <=? v) with true by lia. reflexivity. Qed.
Lemma absent_sized {A} (d : A) ok : sized {| c_enc _ := []; c_dec bs := Ok (d, bs); c_size _ := 0 |} ok.
Proof. split; intros a _; [reflexivity|constructor]. Qed.
Lemma fld_sized {A} v min (d : A) c ok : sized c ok -> sized (fld v min d c) ok.
Proof. intros H. unfold fld. destruct (min <=? v); [exact H|apply absent_sized]. Qed.

Lemma content_sized : sized content_codec is_bytes.
Proof.
  split.
  - intros c H. cbn [c_size c_enc content_codec]. rewrite zlen_app. unfold zlen at 2. rewrite be_enc_length. lia.
  - intros c H. cbn [c_enc content_codec]. apply is_bytes_app. split; [apply be_enc_bytes|exact H].
Qed.

Lemma u4_lawful : lawful u32_codec (in_u 32). Proof. exact (u_lawful 4). Qed.
Lemma u2_lawful : lawful u16_codec (in_u 16). Proof. exact (u_lawful 2). Qed.
Lemma s2_lawful : lawful i16_codec (in_s 16). Proof. exact (s_lawful 2 ltac:(lia)). Qed.
Lemma s4_lawful : lawful i32_codec (in_s 32). Proof. exact (s_lawful 4 ltac:(lia)). Qed.
Lemma s8_lawful : lawful i64_codec (in_s 64). Proof. exact (s_lawful 8 ltac:(lia)). Qed.

Definition aborted_ok (o : option (list (Z * Z))) : Prop :=
  match o with Some l => Forall (fun t => in_s 64 (fst t) /\ in_s 64 (snd t)) l /\ zlen l < 2 ^ 31 | None => True end.
Lemma aborted_lawful : lawful aborted_codec aborted_ok.
Proof. exact (option_lawful _ _ (vec_lawful _ _ (pair_lawful _ _ _ _ s8_lawful s8_lawful))). Qed.

(** Sizes of the message with slices, from those of the same message with the contents. *)
Definition same_size {A B} (ca : codec A) (cb : codec B) (f : A -> B) (ok : A -> Prop) : Prop :=
  forall a, ok a -> c_size ca a = c_size cb (f a).
Lemma vec_same_size {A B} (ca : codec A) (cb : codec B) f ok : same_size ca cb f ok ->
  same_size (vec_codec ca) (vec_codec cb) (map f) (Forall ok).
Proof.
  intros H l Hl. cbn [c_size vec_codec]. unfold vec_size. generalize 4 as s.
  induction Hl as [|a l Ha Hl IH]; intros s; cbn [fold_left map]; [reflexivity|]. rewrite (H a Ha). apply IH.
Qed.
Lemma set_same_size st : same_size file_set_codec content_codec (contents st) (held st).
Proof. intros s H. cbn [c_size file_set_codec content_codec]. rewrite contents_zlen by exact H. reflexivity. Qed.

Lemma Forall_imp {A} (P Q : A -> Prop) l : (forall a, P a -> Q a) -> Forall P l -> Forall Q l.
Proof. intros H F. eapply Forall_impl; [exact H|exact F]. Qed.
Lemma zlen_map {A B} (f : A -> B) l : zlen (map f l) = zlen l.
Proof. unfold zlen. rewrite map_length. reflexivity. Qed.
Lemma Forall_map_iff {A B} (f : A -> B) (P : B -> Prop) l : Forall P (map f l) <-> Forall (fun a => P (f a)) l.
Proof. apply Forall_map. Qed.

(** Decoding of a sequence of which only the last element leaves something. *)
Definition reads {A B} (enc : A -> bytes) (dec : bytes -> res (B * bytes)) (f : A -> B) (lo : A -> bytes) (ok : A -> Prop) :=
  forall a rest, ok a -> dec (enc a ++ rest) = Ok (f a, lo a ++ rest).
Lemma dec_times_reads {A B} (enc : A -> bytes) (dec : bytes -> res (B * bytes)) f lo ok l rest :
  reads enc dec f lo ok -> Forall (fun a => ok a /\ lo a = []) l ->
  dec_times dec (length l) (flat_map enc l ++ rest) = Ok (map f l, rest).
Proof.
  intros R. induction 1 as [|a l [Ha Hlo] Hl IH]; [reflexivity|].
  cbn [length dec_times flat_map map]. rewrite <- app_assoc, R by exact Ha. rewrite Hlo. cbn [app bind].
  rewrite IH. reflexivity.
Qed.
Lemma dec_times_reads_last {A B} (enc : A -> bytes) (dec : bytes -> res (B * bytes)) f lo ok l z rest :
  reads enc dec f lo ok -> Forall (fun a => ok a /\ lo a = []) l -> ok z ->
  dec_times dec (length (l ++ [z])) (flat_map enc (l ++ [z]) ++ rest) = Ok (map f (l ++ [z]), lo z ++ rest).
Proof.
  intros R H Hz. induction H as [|a l [Ha Hlo] Hl IH]; cbn [length dec_times flat_map map app].
  - rewrite <- app_assoc, R by exact Hz. cbn [app bind]. reflexivity.
  - rewrite <- app_assoc, R by exact Ha. rewrite Hlo. cbn [app bind]. rewrite IH. reflexivity.
Qed.
Lemma vec_dec_times {A B} (ca : codec A) (cb : codec B) l rest : zlen l < 2 ^ 31 ->
  c_dec (vec_codec cb) (c_enc (vec_codec ca) l ++ rest) = dec_times (c_dec cb) (length l) (flat_map (c_enc ca) l ++ rest).
Proof.
  intros Hz. cbn [c_dec c_enc vec_codec]. unfold vec_dec, vec_enc. pose proof (zlen_nonneg l) as H0.
  rewrite wrap_u_id by (unfold in_u; change (2 ^ 32) with 4294967296; change (2 ^ 31) with 2147483648 in Hz; lia).
  rewrite <- app_assoc, i32_dec by lia. cbn [bind]. destruct (zlen l <? 1) eqn:Q.
  - destruct l; [reflexivity|]. rewrite zlen_cons in Q. pose proof (zlen_nonneg l). lia.
  - unfold zlen. rewrite Nat2Z.id. reflexivity.
Qed.

(** * Request headers *)

Lemma rheader_sized v : sized (rheader_codec v) rheader_ok.
Proof.
  unfold rheader_codec.
  eapply sized_via with (ok := fun t => in_u 16 (fst t) /\ (in_s 16 (fst (snd t)) /\ (in_s 32 (fst (snd (snd t))) /\ str_ok (snd (snd (snd t)))))).
  - apply (sized_pair _ _ (in_u 16) (fun t => in_s 16 (fst t) /\ (in_s 32 (fst (snd t)) /\ str_ok (snd (snd t)))));
      [apply fld_sized, lawful_sized, u2_lawful|].
    apply (sized_pair _ _ (in_s 16) (fun t => in_s 32 (fst t) /\ str_ok (snd t)));
      [apply fld_sized, lawful_sized, s2_lawful|].
    apply sized_pair; [apply fld_sized, lawful_sized, s4_lawful|apply fld_sized, lawful_sized, string_lawful].
  - intros h (H1 & H2 & H3 & H4). cbn [fst snd]. split; [exact H1|]. split; [|auto].
    unfold in_s. change (2 ^ (16 - 1)) with (2 ^ 15). lia.
Qed.
Lemma rheader_same v h : 0 <= v -> c_enc (rheader_codec v) h = c_enc (rheader_codec 0) h.
Proof. intros H. unfold rheader_codec. rewrite !fld_on by lia. reflexivity. Qed.
Lemma rheader_dec h rest : rheader_ok h -> c_dec (rheader_codec 0) (c_enc (rheader_codec 0) h ++ rest) = Ok (h, rest).
Proof.
  intros (H1 & H2 & H3 & H4). unfold rheader_codec. rewrite !fld_on by lia. rewrite via_enc, via_dec.
  destruct (pair_lawful _ _ _ _ u2_lawful (pair_lawful _ _ _ _ s2_lawful (pair_lawful _ _ _ _ s4_lawful string_lawful))) as (R & _).
  rewrite R; [destruct h; reflexivity|]. cbn [fst snd]. split; [exact H1|]. split; [|auto].
  unfold in_s. change (2 ^ (16 - 1)) with (2 ^ 15). lia.
Qed.

Section WithErrors.
  Context {E : Type} (ec : Z -> codec E) (no_error : E) (eok : E -> Prop).
  Hypothesis F : faithful ec eok.

  Lemma e_lawful v : 0 <= v -> lawful (ec v) eok. Proof. exact (F v). Qed.

  (** ** One partition *)

  Lemma fpart_writes st v p : 0 <= v -> held st (fp_records p) ->
    writes st (file_fpart ec v p) (c_enc (fpart_codec ec no_error v [] content_codec) (fpart_map (contents st) p)).
  Proof.
    intros Hv H. unfold file_fpart, fpart_codec. rewrite via_enc. rewrite !(fld_on v 0) by lia.
    eapply writes_eq.
    - alsos; try (match goal with |- writes _ (put _) _ => apply put_writes end); [|apply records_writes; exact H].
      instantiate (1 := c_enc (fld v 11 0 i64_codec) (fp_next p)).
      unfold fld. destruct (11 <=? v); apply put_writes.
    - cbn [c_enc pair_codec u32_codec u_codec i64_codec s_codec fpart_map fp_index fp_error fp_hw fp_next fp_start fp_aborted fp_records].
      rewrite <- !app_assoc. reflexivity.
  Qed.
  Lemma fpart_sized v : 0 <= v -> sized (fpart_codec ec no_error v [] content_codec) (fpart_ok eok is_bytes).
  Proof.
    intros Hv. unfold fpart_codec. eapply sized_via.
    - apply sized_pair; [apply fld_sized, lawful_sized, u4_lawful|].
      apply sized_pair; [apply fld_sized, lawful_sized, (e_lawful v Hv)|].
      do 3 (apply sized_pair; [apply fld_sized, lawful_sized, s8_lawful|]).
      apply sized_pair; [apply fld_sized, lawful_sized, aborted_lawful|apply fld_sized, content_sized].
    - intros p H. exact H.
  Qed.
  Lemma fpart_same_size st v : same_size (fpart_codec ec no_error v no_slice file_set_codec)
    (fpart_codec ec no_error v [] content_codec) (fpart_map (contents st)) (fpart_ok eok (held st)).
  Proof.
    intros p (_ & _ & _ & _ & _ & _ & H). unfold fpart_codec.
    cbn [c_size via pair_codec fpart_map fp_index fp_error fp_hw fp_next fp_start fp_aborted fp_records].
    do 6 f_equal. unfold fld. destruct (0 <=? v); [|reflexivity]. apply set_same_size. exact H.
  Qed.
  Lemma fpart_reads v : 0 <= v -> reads (c_enc (fpart_codec ec no_error v [] content_codec))
    (c_dec (fpart_codec ec no_error v [] set_codec)) (fun p => fpart_seen v (fpart_map decoded p))
    (fun p => leftover (fp_records p)) (fpart_ok eok (fun c => zlen c < 2 ^ 31)).
  Proof.
    intros Hv p rest (H1 & H2 & H3 & H4 & H5 & H6 & H7). unfold fpart_codec. rewrite via_enc, via_dec.
    rewrite !(fld_on v 0) by lia. cbn [c_enc c_dec pair_codec]. rewrite <- !app_assoc.
    destruct u4_lawful as (RU & _), (e_lawful v Hv) as (RE & _), s8_lawful as (R8 & _), aborted_lawful as (RA & _).
    rewrite RU by exact H1. cbn [bind]. rewrite RE by exact H2. cbn [bind]. rewrite R8 by exact H3. cbn [bind].
    unfold fpart_seen, fld. destruct (11 <=? v).
    - rewrite R8 by exact H4. cbn [bind]. rewrite R8 by exact H5. cbn [bind]. rewrite RA by exact H6. cbn [bind].
      cbn [c_dec set_codec]. rewrite set_reads by exact H7. reflexivity.
    - cbn [c_enc c_dec app bind]. rewrite R8 by exact H5. cbn [bind]. rewrite RA by exact H6. cbn [bind].
      cbn [c_dec set_codec]. rewrite set_reads by exact H7. reflexivity.
  Qed.

  Lemma ppart_writes st v p : 0 <= v -> held st (pp_records p) ->
    writes st (file_ppart ec v p) (c_enc (ppart_codec ec no_error v [] content_codec) (ppart_map (contents st) p)).
  Proof.
    intros Hv H. unfold file_ppart, ppart_codec. rewrite via_enc. rewrite !(fld_on v 0) by lia.
    eapply writes_eq.
    - alsos; try (match goal with |- writes _ (put _) _ => apply put_writes end). apply records_writes. exact H.
    - cbn [c_enc pair_codec u32_codec u_codec i64_codec s_codec ppart_map pp_index pp_error pp_hw pp_leo pp_records].
      rewrite <- !app_assoc. reflexivity.
  Qed.
  Lemma ppart_sized v : 0 <= v -> sized (ppart_codec ec no_error v [] content_codec) (ppart_ok eok is_bytes).
  Proof.
    intros Hv. unfold ppart_codec. eapply sized_via.
    - apply sized_pair; [apply fld_sized, lawful_sized, u4_lawful|].
      apply sized_pair; [apply fld_sized, lawful_sized, (e_lawful v Hv)|].
      do 2 (apply sized_pair; [apply fld_sized, lawful_sized, s8_lawful|]).
      apply fld_sized, content_sized.
    - intros p H. exact H.
  Qed.
  Lemma ppart_same_size st v : same_size (ppart_codec ec no_error v no_slice file_set_codec)
    (ppart_codec ec no_error v [] content_codec) (ppart_map (contents st)) (ppart_ok eok (held st)).
  Proof.
    intros p (_ & _ & _ & _ & H). unfold ppart_codec.
    cbn [c_size via pair_codec ppart_map pp_index pp_error pp_hw pp_leo pp_records].
    do 4 f_equal. unfold fld. destruct (0 <=? v); [|reflexivity]. apply set_same_size. exact H.
  Qed.
  Lemma ppart_reads v : 0 <= v -> reads (c_enc (ppart_codec ec no_error v [] content_codec))
    (c_dec (ppart_codec ec no_error v [] set_codec)) (ppart_map decoded)
    (fun p => leftover (pp_records p)) (ppart_ok eok (fun c => zlen c < 2 ^ 31)).
  Proof.
    intros Hv p rest (H1 & H2 & H3 & H4 & H5). unfold ppart_codec. rewrite via_enc, via_dec.
    rewrite !(fld_on v 0) by lia. cbn [c_enc c_dec pair_codec]. rewrite <- !app_assoc.
    destruct u4_lawful as (RU & _), (e_lawful v Hv) as (RE & _), s8_lawful as (R8 & _).
    rewrite RU by exact H1. cbn [bind]. rewrite RE by exact H2. cbn [bind]. rewrite R8 by exact H3. cbn [bind].
    rewrite R8 by exact H4. cbn [bind c_dec set_codec]. rewrite set_reads by exact H5. reflexivity.
  Qed.

  Lemma held_contents st s : held st s -> is_bytes (contents st s) /\ zlen (contents st s) < 2 ^ 31.
  Proof. intros H. split; [apply contents_bytes; exact H|]. rewrite contents_zlen by exact H. apply H. Qed.
  Lemma fpart_ok_map {A B} (P : A -> Prop) (Q : B -> Prop) f p : (forall a, P a -> Q (f a)) ->
    fpart_ok eok P p -> fpart_ok eok Q (fpart_map f p).
  Proof. intros H (H1 & H2 & H3 & H4 & H5 & H6 & H7). repeat split; cbn; auto; try apply H1; try apply H3; try apply H4; apply H5. Qed.
  Lemma ppart_ok_map {A B} (P : A -> Prop) (Q : B -> Prop) f p : (forall a, P a -> Q (f a)) ->
    ppart_ok eok P p -> ppart_ok eok Q (ppart_map f p).
  Proof. intros H (H1 & H2 & H3 & H4 & H5). repeat split; cbn; auto; try apply H1; try apply H3; apply H4. Qed.

  (** ** Topics *)

  Lemma ftopic_writes st v t : 0 <= v -> ftopic_ok eok (held st) t ->
    writes st (file_ftopic ec v t) (c_enc (ftopic_codec ec no_error v [] content_codec) (ftopic_map (contents st) t)).
  Proof.
    intros Hv (H1 & H2 & H3). unfold file_ftopic, ftopic_codec. rewrite via_enc. rewrite !(fld_on v 0) by lia.
    eapply writes_eq.
    - apply also_writes; [apply put_writes|]. apply (vec_writes st _ (fpart_map (contents st)) (fpart_codec ec no_error v [] content_codec) _ H3).
      eapply Forall_imp; [|exact H2]. intros p Hp. apply fpart_writes; [exact Hv|apply Hp].
    - reflexivity.
  Qed.
  Lemma ptopic_writes st v t : 0 <= v -> ptopic_ok eok (held st) t ->
    writes st (file_ptopic ec v t) (c_enc (ptopic_codec ec no_error v [] content_codec) (ptopic_map (contents st) t)).
  Proof.
    intros Hv (H1 & H2 & H3). unfold file_ptopic, ptopic_codec. rewrite via_enc. rewrite !(fld_on v 0) by lia.
    eapply writes_eq.
    - apply also_writes; [apply put_writes|]. apply (vec_writes st _ (ppart_map (contents st)) (ppart_codec ec no_error v [] content_codec) _ H3).
      eapply Forall_imp; [|exact H2]. intros p Hp. apply ppart_writes; [exact Hv|apply Hp].
    - reflexivity.
  Qed.
  Lemma ftopic_sized v : 0 <= v -> sized (ftopic_codec ec no_error v [] content_codec)
    (fun t => str_ok (ft_name t) /\ Forall (fpart_ok eok is_bytes) (ft_parts t)).
  Proof.
    intros Hv. unfold ftopic_codec. eapply sized_via.
    - apply sized_pair; [apply fld_sized, lawful_sized, string_lawful|apply fld_sized, sized_vec, (fpart_sized v Hv)].
    - intros t H. exact H.
  Qed.
  Lemma ptopic_sized v : 0 <= v -> sized (ptopic_codec ec no_error v [] content_codec)
    (fun t => str_ok (pt_name t) /\ Forall (ppart_ok eok is_bytes) (pt_parts t)).
  Proof.
    intros Hv. unfold ptopic_codec. eapply sized_via.
    - apply sized_pair; [apply fld_sized, lawful_sized, string_lawful|apply fld_sized, sized_vec, (ppart_sized v Hv)].
    - intros t H. exact H.
  Qed.
  Lemma ftopic_same_size st v : same_size (ftopic_codec ec no_error v no_slice file_set_codec)
    (ftopic_codec ec no_error v [] content_codec) (ftopic_map (contents st)) (ftopic_ok eok (held st)).
  Proof.
    intros t (_ & H & _). unfold ftopic_codec. cbn [c_size via pair_codec ftopic_map ft_name ft_parts]. f_equal.
    unfold fld. destruct (0 <=? v); [|reflexivity].
    apply (vec_same_size _ _ (fpart_map (contents st)) _ (fpart_same_size st v)). exact H.
  Qed.
  Lemma ptopic_same_size st v : same_size (ptopic_codec ec no_error v no_slice file_set_codec)
    (ptopic_codec ec no_error v [] content_codec) (ptopic_map (contents st)) (ptopic_ok eok (held st)).
  Proof.
    intros t (_ & H & _). unfold ptopic_codec. cbn [c_size via pair_codec ptopic_map pt_name pt_parts]. f_equal.
    unfold fld. destruct (0 <=? v); [|reflexivity].
    apply (vec_same_size _ _ (ppart_map (contents st)) _ (ppart_same_size st v)). exact H.
  Qed.

  (** ** Whole bodies: bytes, size *)

  Definition body {A B} (st : files) (w : A -> writer) (size : A -> Z) (c : codec B) (f : A -> B) (x : A) : Prop :=
    writes st (w x) (c_enc c (f x)) /\ size x = zlen (c_enc c (f x)) /\ is_bytes (c_enc c (f x)).

  Lemma stream_body st v x : 0 <= v -> stream_ok eok (held st) x ->
    body st (file_stream ec v) (c_size (stream_codec ec no_error v no_slice file_set_codec))
         (stream_codec ec no_error v [] content_codec) (stream_map (contents st)) x.
  Proof.
    intros Hv (H1 & H2 & H3).
    assert (sized (stream_codec ec no_error v [] content_codec) (stream_ok eok is_bytes)) as S.
    { unfold stream_codec. eapply sized_via.
      - apply sized_pair; [apply fld_sized, lawful_sized, string_lawful|].
        apply sized_pair; [apply fld_sized, lawful_sized, u4_lawful|apply fld_sized, (fpart_sized v Hv)].
      - intros s H. exact H. }
    assert (stream_ok eok is_bytes (stream_map (contents st) x)) as Hok.
    { split; [exact H1|]. split; [exact H2|]. eapply fpart_ok_map; [|exact H3]. apply contents_bytes. }
    destruct S as [S B]. split; [|split].
    - unfold file_stream, stream_codec. rewrite via_enc. rewrite !(fld_on v 0) by lia.
      eapply writes_eq; [alsos; try (match goal with |- writes _ (put _) _ => apply put_writes end); apply fpart_writes; [exact Hv|apply H3]|].
      cbn [c_enc pair_codec u32_codec u_codec stream_map sr_topic sr_id sr_part]. rewrite <- app_assoc. reflexivity.
    - rewrite <- S by exact Hok. unfold stream_codec. cbn [c_size via pair_codec stream_map sr_topic sr_id sr_part].
      do 2 f_equal. unfold fld. destruct (0 <=? v); [|reflexivity]. apply fpart_same_size. exact H3.
    - apply B. exact Hok.
  Qed.
  Lemma fetch_body st v x : 0 <= v -> fetch_ok eok (held st) x ->
    body st (file_fetch ec v) (c_size (fetch_codec ec no_error v no_slice file_set_codec))
         (fetch_codec ec no_error v [] content_codec) (fetch_map (contents st)) x.
  Proof.
    intros Hv (H1 & H2 & H3 & H4 & H5).
    pose (ok := fun f : fetch_resp (E := E) bytes => in_s 32 (fr_throttle f) /\ (eok (fr_error f) /\ (in_s 32 (fr_session f)
      /\ Forall (fun t => str_ok (ft_name t) /\ Forall (fpart_ok eok is_bytes) (ft_parts t)) (fr_topics f)))).
    assert (sized (fetch_codec ec no_error v [] content_codec) ok) as S.
    { unfold fetch_codec. eapply sized_via.
      - apply sized_pair; [apply fld_sized, lawful_sized, s4_lawful|].
        apply sized_pair; [apply fld_sized, lawful_sized, (e_lawful v Hv)|].
        apply sized_pair; [apply fld_sized, lawful_sized, s4_lawful|apply fld_sized, sized_vec, (ftopic_sized v Hv)].
      - intros s H. exact H. }
    assert (ok (fetch_map (contents st) x)) as Hok.
    { split; [exact H1|]. split; [exact H2|]. split; [exact H3|]. cbn [fetch_map fr_topics].
      apply Forall_map_iff. eapply Forall_imp; [|exact H4]. intros t (T1 & T2 & _). split; [exact T1|].
      cbn [ftopic_map ft_parts]. apply Forall_map_iff. eapply Forall_imp; [|exact T2]. intros p Hp.
      eapply fpart_ok_map; [|exact Hp]. apply contents_bytes. }
    destruct S as [S B]. split; [|split].
    - unfold file_fetch, fetch_codec. rewrite via_enc. rewrite !(fld_on v 0) by lia.
      eapply writes_eq.
      + apply also_writes; [alsos; apply put_writes|].
        apply (vec_writes st _ (ftopic_map (contents st)) (ftopic_codec ec no_error v [] content_codec) _ H5).
        eapply Forall_imp; [|exact H4]. intros t Ht. apply ftopic_writes; assumption.
      + cbn [c_enc pair_codec i32_codec s_codec fetch_map fr_throttle fr_error fr_session fr_topics].
        rewrite <- !app_assoc. reflexivity.
    - rewrite <- S by exact Hok. unfold fetch_codec. cbn [c_size via pair_codec fetch_map fr_throttle fr_error fr_session fr_topics].
      do 3 f_equal. unfold fld. destruct (0 <=? v); [|reflexivity].
      apply (vec_same_size _ _ (ftopic_map (contents st)) _ (ftopic_same_size st v)). exact H4.
    - apply B. exact Hok.
  Qed.
  Lemma sync_body st v x : 0 <= v -> sync_ok eok (held st) x ->
    body st (file_sync ec v) (c_size (sync_codec ec no_error v no_slice file_set_codec))
         (sync_codec ec no_error v [] content_codec) (map (ptopic_map (contents st))) x.
  Proof.
    intros Hv (H4 & H5).
    assert (Forall (fun t => str_ok (pt_name t) /\ Forall (ppart_ok eok is_bytes) (pt_parts t)) (map (ptopic_map (contents st)) x)) as Hok.
    { apply Forall_map_iff. eapply Forall_imp; [|exact H4]. intros t (T1 & T2 & _). split; [exact T1|].
      cbn [ptopic_map pt_parts]. apply Forall_map_iff. eapply Forall_imp; [|exact T2]. intros p Hp.
      eapply ppart_ok_map; [|exact Hp]. apply contents_bytes. }
    unfold body, sync_codec. rewrite !(fld_on v 0) by lia.
    destruct (sized_vec _ _ (ptopic_sized v Hv)) as [S B]. split; [|split].
    - unfold file_sync. apply (vec_writes st _ (ptopic_map (contents st)) (ptopic_codec ec no_error v [] content_codec) _ H5).
      eapply Forall_imp; [|exact H4]. intros t Ht. apply ptopic_writes; assumption.
    - rewrite <- S by exact Hok.
      apply (vec_same_size _ _ (ptopic_map (contents st)) _ (ptopic_same_size st v)). exact H4.
    - apply B. exact Hok.
  Qed.
End WithErrors.

Lemma mirror_body st v x : 0 <= v -> mirror_ok (held st) x ->
  body st (file_mirror) (c_size (mirror_codec v no_slice file_set_codec))
       (mirror_codec v [] content_codec) (mirror_map (contents st)) x.
Proof.
  intros Hv (H1 & H2 & H3).
  assert (sized (mirror_codec v [] content_codec) (mirror_ok is_bytes)) as S.
  { unfold mirror_codec. eapply sized_via.
    - do 2 (apply sized_pair; [apply fld_sized, lawful_sized, s8_lawful|]). apply fld_sized, content_sized.
    - intros s H. exact H. }
  assert (mirror_ok is_bytes (mirror_map (contents st) x)) as Hok.
  { split; [exact H1|]. split; [exact H2|]. apply contents_bytes. exact H3. }
  destruct S as [S B]. split; [|split].
  - unfold file_mirror, mirror_codec. rewrite via_enc. rewrite !(fld_on v 0) by lia.
    eapply writes_eq; [alsos; try (match goal with |- writes _ (put _) _ => apply put_writes end); apply records_writes; exact H3|].
    cbn [c_enc pair_codec i64_codec s_codec mirror_map mq_hw mq_leo mq_records]. rewrite <- app_assoc. reflexivity.
  - rewrite <- S by exact Hok. unfold mirror_codec. cbn [c_size via pair_codec mirror_map mq_hw mq_leo mq_records].
    do 2 f_equal. unfold fld. destruct (0 <=? v); [|reflexivity]. apply set_same_size. exact H3.
  - apply B. exact Hok.
Qed.

(** * Messages *)

Lemma framed_wrap (n : Z) bs : n = zlen bs -> zlen bs < 2 ^ 31 -> be_enc 4 (wrap_s 32 n) ++ bs = framed bs.
Proof.
  intros -> H. unfold framed. pose proof (zlen_nonneg bs).
  rewrite wrap_s_id by (try lia; unfold in_s; change (2 ^ (32 - 1)) with (2 ^ 31); lia). reflexivity.
Qed.

Lemma resp_sent {A B} st (w : A -> writer) size (c : codec B) f corr x :
  body st w size c f x -> zlen (c_enc (resp_codec c) (corr, f x)) < 2 ^ 31 ->
  encode_file_slices st (file_resp size w corr x) = framed (c_enc (resp_codec c) (corr, f x))
  /\ is_bytes (c_enc (resp_codec c) (corr, f x)).
Proof.
  intros (W & S & By) H. cbn [c_enc resp_codec pair_codec i32_codec s_codec] in *. split.
  - rewrite <- (framed_wrap (4 + size x)); [|rewrite zlen_app, S; unfold zlen at 2; rewrite be_enc_length; reflexivity|exact H].
    apply sent_writes. unfold file_resp.
    eapply writes_eq; [alsos; try (match goal with |- writes _ (put _) _ => apply put_writes end); exact W|]. rewrite <- app_assoc. reflexivity.
  - apply is_bytes_app. split; [apply be_enc_bytes|exact By].
Qed.
Lemma request_sent {A B} st (w : Z -> A -> writer) size (c : Z -> codec B) f h x : rheader_ok h ->
  body st (w (rh_version h)) (size (rh_version h)) (c (rh_version h)) f x ->
  zlen (request_enc c (rh_version h) h (f x)) < 2 ^ 31 ->
  encode_file_slices st (file_request size w h x) = framed (request_enc c (rh_version h) h (f x))
  /\ is_bytes (request_enc c (rh_version h) h (f x)).
Proof.
  intros Hh (W & S & By) H. unfold request_enc in *. destruct (rheader_sized (rh_version h)) as [SH BH]. split.
  - rewrite <- (framed_wrap (request_size size (rh_version h) h x)); [|unfold request_size; rewrite zlen_app, S, SH by exact Hh; reflexivity|exact H].
    apply sent_writes. unfold file_request.
    eapply writes_eq; [alsos; try (match goal with |- writes _ (put _) _ => apply put_writes end); exact W|]. rewrite <- app_assoc. reflexivity.
  - apply is_bytes_app. split; [apply BH; exact Hh|exact By].
Qed.

Lemma resp_zlen {A B} st (w : A -> writer) size (c : codec B) f corr x : body st w size c f x ->
  zlen (encode_file_slices st (file_resp size w corr x)) = 4 + zlen (c_enc (resp_codec c) (corr, f x)).
Proof.
  intros (W & _). erewrite sent_writes.
  2: { unfold file_resp. alsos; try (match goal with |- writes _ (put _) _ => apply put_writes end). exact W. }
  cbn [c_enc resp_codec pair_codec i32_codec s_codec]. rewrite !zlen_app. unfold zlen. rewrite !be_enc_length. cbn [fst snd]. lia.
Qed.
Lemma request_zlen {A B} st (w : Z -> A -> writer) size (c : Z -> codec B) f h x :
  body st (w (rh_version h)) (size (rh_version h)) (c (rh_version h)) f x ->
  zlen (encode_file_slices st (file_request size w h x)) = 4 + zlen (request_enc c (rh_version h) h (f x)).
Proof.
  intros (W & _). erewrite sent_writes.
  2: { unfold file_request. cbv zeta. alsos; try (match goal with |- writes _ (put _) _ => apply put_writes end). exact W. }
  unfold request_enc. rewrite !zlen_app. unfold zlen. rewrite !be_enc_length. lia.
Qed.

(** * The same bytes as from memory *)

Lemma disk_held st (f : fslice -> list (batch bytes)) s : on_disk st s (f s) -> held st s.
Proof. intros [H _]. exact H. Qed.
Lemma disk_enc st f s : on_disk st s (f s) -> c_enc content_codec (contents st s) = c_enc set_codec (f s).
Proof. intros [_ H]. cbn [c_enc content_codec set_codec]. unfold rset_enc. rewrite H. reflexivity. Qed.

Lemma vec_enc_ext {A B C} (ca : codec B) (cb : codec C) (f : A -> B) (g : A -> C) (l : list A) :
  Forall (fun a => c_enc ca (f a) = c_enc cb (g a)) l -> c_enc (vec_codec ca) (map f l) = c_enc (vec_codec cb) (map g l).
Proof.
  intros H. cbn [c_enc vec_codec]. unfold vec_enc. rewrite !zlen_map. f_equal.
  induction H as [|a l Ha Hl IH]; cbn [map flat_map]; [reflexivity|]. rewrite Ha, IH. reflexivity.
Qed.

Section Same.
  Context {E : Type} (ec : Z -> codec E) (no_error : E) (eok : E -> Prop).
  Hypothesis F : faithful ec eok.
  Context (st : files) (f : fslice -> list (batch bytes)).

  Lemma fpart_same v p : 0 <= v -> fpart_ok eok (fun s => on_disk st s (f s)) p ->
    c_enc (fpart_codec ec no_error v [] content_codec) (fpart_map (contents st) p)
    = c_enc (fpart_codec ec no_error v [] set_codec) (fpart_map f p).
  Proof.
    intros Hv H. destruct H as (_ & _ & _ & _ & _ & _ & H). unfold fpart_codec. rewrite !via_enc. rewrite !(fld_on v 0) by lia.
    cbn [c_enc pair_codec fpart_map fp_index fp_error fp_hw fp_next fp_start fp_aborted fp_records].
    do 6 f_equal. apply disk_enc. exact H.
  Qed.
  Lemma ppart_same v p : 0 <= v -> ppart_ok eok (fun s => on_disk st s (f s)) p ->
    c_enc (ppart_codec ec no_error v [] content_codec) (ppart_map (contents st) p)
    = c_enc (ppart_codec ec no_error v [] set_codec) (ppart_map f p).
  Proof.
    intros Hv H. destruct H as (_ & _ & _ & _ & H). unfold ppart_codec. rewrite !via_enc. rewrite !(fld_on v 0) by lia.
    cbn [c_enc pair_codec ppart_map pp_index pp_error pp_hw pp_leo pp_records].
    do 4 f_equal. apply disk_enc. exact H.
  Qed.

  Lemma fpart_weaken {A} (P Q : A -> Prop) (p : fpart (E := E) A) : (forall a, P a -> Q a) -> fpart_ok eok P p -> fpart_ok eok Q p.
  Proof. intros I (H1 & H2 & H3 & H4 & H5 & H6 & H7). unfold fpart_ok. auto 10. Qed.
  Lemma ppart_weaken {A} (P Q : A -> Prop) (p : ppart (E := E) A) : (forall a, P a -> Q a) -> ppart_ok eok P p -> ppart_ok eok Q p.
  Proof. intros I (H1 & H2 & H3 & H4 & H5). unfold ppart_ok. auto 10. Qed.
  Lemma stream_weaken {A} (P Q : A -> Prop) (p : stream_resp (E := E) A) : (forall a, P a -> Q a) -> stream_ok eok P p -> stream_ok eok Q p.
  Proof. intros I (H1 & H2 & H3). split; [exact H1|]. split; [exact H2|]. eapply fpart_weaken; eassumption. Qed.
  Lemma fetch_weaken {A} (P Q : A -> Prop) (p : fetch_resp (E := E) A) : (forall a, P a -> Q a) -> fetch_ok eok P p -> fetch_ok eok Q p.
  Proof.
    intros I (H1 & H2 & H3 & H4 & H5). unfold fetch_ok. repeat (split; [assumption|]). split; [|exact H5].
    eapply Forall_imp; [|exact H4]. intros t (T1 & T2 & T3). split; [exact T1|]. split; [|exact T3].
    eapply Forall_imp; [|exact T2]. intros q. apply fpart_weaken. exact I.
  Qed.
  Lemma sync_weaken {A} (P Q : A -> Prop) (p : list (ptopic (E := E) A)) : (forall a, P a -> Q a) -> sync_ok eok P p -> sync_ok eok Q p.
  Proof.
    intros I (H4 & H5). split; [|exact H5].
    eapply Forall_imp; [|exact H4]. intros t (T1 & T2 & T3). split; [exact T1|]. split; [|exact T3].
    eapply Forall_imp; [|exact T2]. intros q. apply ppart_weaken. exact I.
  Qed.

  Lemma stream_sent v corr x : 0 <= v -> stream_ok eok (fun s => on_disk st s (f s)) x ->
    zlen (send_stream ec no_error st v corr x) < 2 ^ 31 ->
    send_stream ec no_error st v corr x = framed (c_enc (resp_codec (stream_codec ec no_error v [] set_codec)) (corr, stream_map f x)).
  Proof.
    intros Hv H Hz. pose proof (stream_weaken _ _ x (disk_held st f) H) as HH.
    pose proof (stream_body ec no_error eok F st v x Hv HH) as B. unfold send_stream in *.
    rewrite (resp_zlen _ _ _ _ _ corr _ B) in Hz. destruct (resp_sent _ _ _ _ _ corr _ B ltac:(lia)) as [-> _].
    f_equal. cbn [c_enc resp_codec pair_codec]. f_equal. unfold stream_codec. rewrite !via_enc, !(fld_on v 0) by lia.
    cbn [c_enc pair_codec stream_map sr_topic sr_id sr_part]. do 2 f_equal. apply fpart_same; [exact Hv|apply H].
  Qed.
  Lemma fetch_sent v corr x : 0 <= v -> fetch_ok eok (fun s => on_disk st s (f s)) x ->
    zlen (send_fetch ec no_error st v corr x) < 2 ^ 31 ->
    send_fetch ec no_error st v corr x = framed (c_enc (resp_codec (fetch_codec ec no_error v [] set_codec)) (corr, fetch_map f x)).
  Proof.
    intros Hv H Hz. pose proof (fetch_weaken _ _ x (disk_held st f) H) as HH.
    pose proof (fetch_body ec no_error eok F st v x Hv HH) as B. unfold send_fetch in *.
    rewrite (resp_zlen _ _ _ _ _ corr _ B) in Hz. destruct (resp_sent _ _ _ _ _ corr _ B ltac:(lia)) as [-> _].
    f_equal. cbn [c_enc resp_codec pair_codec]. f_equal. unfold fetch_codec. rewrite !via_enc, !(fld_on v 0) by lia.
    cbn [c_enc pair_codec fetch_map fr_throttle fr_error fr_session fr_topics]. do 3 f_equal.
    apply vec_enc_ext. destruct H as (_ & _ & _ & H & _). eapply Forall_imp; [|exact H]. intros t (T1 & T2 & T3).
    unfold ftopic_codec. rewrite !via_enc, !(fld_on v 0) by lia. cbn [c_enc pair_codec ftopic_map ft_name ft_parts]. f_equal.
    apply vec_enc_ext. eapply Forall_imp; [|exact T2]. intros q Hq. apply fpart_same; assumption.
  Qed.
  Lemma sync_sent h x : rheader_ok h -> sync_ok eok (fun s => on_disk st s (f s)) x ->
    zlen (send_sync ec no_error st h x) < 2 ^ 31 ->
    send_sync ec no_error st h x
    = framed (request_enc (fun v => sync_codec ec no_error v [] set_codec) (rh_version h) h (map (ptopic_map f) x)).
  Proof.
    intros Hh H Hz. pose proof (sync_weaken _ _ x (disk_held st f) H) as HH. pose proof Hh as (_ & Hv & _).
    pose proof (sync_body ec no_error eok F st (rh_version h) x ltac:(lia) HH) as B. unfold send_sync in *.
    rewrite (request_zlen _ (file_sync ec) (fun v => c_size (sync_codec ec no_error v no_slice file_set_codec)) (fun v => sync_codec ec no_error v [] content_codec) _ h _ B) in Hz.
    destruct (request_sent _ (file_sync ec) (fun v => c_size (sync_codec ec no_error v no_slice file_set_codec)) (fun v => sync_codec ec no_error v [] content_codec) _ h _ Hh B ltac:(lia)) as [-> _].
    f_equal. unfold request_enc. f_equal. unfold sync_codec. rewrite !(fld_on _ 0) by lia.
    apply vec_enc_ext. destruct H as (H & _). eapply Forall_imp; [|exact H]. intros t (T1 & T2 & T3).
    unfold ptopic_codec. rewrite !via_enc, !(fld_on _ 0) by lia. cbn [c_enc pair_codec ptopic_map pt_name pt_parts]. f_equal.
    apply vec_enc_ext. eapply Forall_imp; [|exact T2]. intros q Hq. apply ppart_same; [lia|assumption].
  Qed.
End Same.

Lemma mirror_weaken {A} (P Q : A -> Prop) (p : mirror_req A) : (forall a, P a -> Q a) -> mirror_ok P p -> mirror_ok Q p.
Proof. intros I (H1 & H2 & H3). unfold mirror_ok. auto. Qed.
Lemma mirror_sent st (f : fslice -> list (batch bytes)) h x : rheader_ok h -> mirror_ok (fun s => on_disk st s (f s)) x ->
  zlen (send_mirror st h x) < 2 ^ 31 ->
  send_mirror st h x = framed (request_enc (fun v => mirror_codec v [] set_codec) (rh_version h) h (mirror_map f x)).
Proof.
  intros Hh H Hz. pose proof (mirror_weaken _ _ x (disk_held st f) H) as HH. pose proof Hh as (_ & Hv & _).
  pose proof (mirror_body st (rh_version h) x ltac:(lia) HH) as B. unfold send_mirror in *.
  rewrite (request_zlen _ (fun _ => file_mirror) (fun v => c_size (mirror_codec v no_slice file_set_codec)) (fun v => mirror_codec v [] content_codec) _ h _ B) in Hz.
  destruct (request_sent _ (fun _ => file_mirror) (fun v => c_size (mirror_codec v no_slice file_set_codec)) (fun v => mirror_codec v [] content_codec) _ h _ Hh B ltac:(lia)) as [-> _].
  f_equal. unfold request_enc. f_equal. unfold mirror_codec. rewrite !via_enc, !(fld_on _ 0) by lia.
  cbn [c_enc pair_codec mirror_map mq_hw mq_leo mq_records]. do 2 f_equal. apply disk_enc. apply H.
Qed.

(** * What the receiver reads *)

Lemma clean_nothing st s : clean_slice st s -> leftover (contents st s) = [].
Proof. intros (l & k & C & H). apply (cut_leftover _ _ _ C). exact H. Qed.

Lemma corr_dec {A} (c : codec A) corr bs : in_s 32 corr ->
  c_dec (resp_codec c) (be_enc 4 corr ++ bs) = let* (x, r) := c_dec c bs in Ok ((corr, x), r).
Proof.
  intros H. cbn [c_dec resp_codec pair_codec]. destruct s4_lawful as (R & _).
  change (be_enc 4 corr) with (c_enc i32_codec corr). rewrite R by exact H. reflexivity.
Qed.

Section Arrive.
  Context {E : Type} (ec : Z -> codec E) (no_error : E) (eok : E -> Prop).
  Hypothesis F : faithful ec eok.

  Lemma stream_read st v corr x : 0 <= v -> in_s 32 corr -> stream_ok eok (held st) x ->
    c_dec (resp_codec (stream_codec ec no_error v [] set_codec))
      (c_enc (resp_codec (stream_codec ec no_error v [] content_codec)) (corr, stream_map (contents st) x))
    = Ok ((corr, stream_seen v (stream_map (fun s => decoded (contents st s)) x)), leftover (contents st (fp_records (sr_part x)))).
  Proof.
    intros Hv Hc (H1 & H2 & H3). cbn [c_enc resp_codec pair_codec i32_codec s_codec]. fold i32_codec.
    rewrite corr_dec by exact Hc. unfold stream_codec. rewrite via_enc, via_dec, !(fld_on v 0) by lia.
    cbn [c_enc c_dec pair_codec fst snd stream_map sr_topic sr_id sr_part]. rewrite <- ?app_assoc.
    destruct string_lawful as (RS & _), u4_lawful as (RU & _). rewrite RS by exact H1. cbn [bind].
    rewrite RU by exact H2. cbn [bind].
    rewrite <- (app_nil_r (c_enc (fpart_codec ec no_error v [] content_codec) (fpart_map (contents st) (sr_part x)))).
    rewrite (fpart_reads ec no_error eok F v Hv).
    - cbn [bind]. rewrite app_nil_r. reflexivity.
    - eapply fpart_ok_map; [|exact H3]. intros s Hs. apply held_contents. exact Hs.
  Qed.

  (** One response of a stream after the other on a connection *)
  Lemma streams_arrive v (l : list (files * (Z * stream_resp (E := E) fslice))) chunks : 0 <= v ->
    Forall (fun m => in_s 32 (fst (snd m)) /\ stream_ok eok (held (fst m)) (snd (snd m))
                     /\ zlen (send_stream ec no_error (fst m) v (fst (snd m)) (snd (snd m))) < 2 ^ 31) l ->
    concat chunks = flat_map (fun m => send_stream ec no_error (fst m) v (fst (snd m)) (snd (snd m))) l ->
    exists fs, receive (Waiting []) chunks = (fs, Waiting [])
      /\ Forall2 (fun m fr => exists unread, c_dec (resp_codec (stream_codec ec no_error v [] set_codec)) fr
            = Ok ((fst (snd m), stream_seen v (stream_map (fun s => decoded (contents (fst m) s)) (snd (snd m)))), unread)) l fs.
  Proof.
    intros Hv H Ec.
    exists (map (fun m => c_enc (resp_codec (stream_codec ec no_error v [] content_codec)) (fst (snd m), stream_map (contents (fst m)) (snd (snd m)))) l).
    rewrite receive_any_split, Ec. clear Ec chunks.
    induction H as [|[st [corr x]] l (Hc & Hx & Hz) Hl IH]; cbn [flat_map map fst snd] in *; [split; [reflexivity|constructor]|].
    destruct IH as [IH1 IH2].
    pose proof (stream_body ec no_error eok F st v x Hv Hx) as B. unfold send_stream in Hz.
    rewrite (resp_zlen _ _ _ _ _ corr _ B) in Hz. destruct (resp_sent _ _ _ _ _ corr _ B ltac:(lia)) as [Es By]. split.
    - rewrite drained_step. unfold send_stream at 1. rewrite Es, frame_dec_framed by (split; [exact By|lia]). rewrite IH1. reflexivity.
    - constructor; [|exact IH2]. cbn [fst snd]. rewrite (stream_read st v corr x Hv Hc Hx). eauto.
  Qed.

  Lemma ftopic_reads st v : 0 <= v -> reads (fun t => c_enc (ftopic_codec ec no_error v [] content_codec) (ftopic_map (contents st) t))
    (c_dec (ftopic_codec ec no_error v [] set_codec))
    (fun t => mkFtopic (ft_name t) (map (fpart_seen v) (map (fpart_map (fun s => decoded (contents st s))) (ft_parts t))))
    (fun _ => []) (ftopic_ok eok (fun s => held st s /\ clean_slice st s)).
  Proof.
    intros Hv t rest (H1 & H2 & H3). unfold ftopic_codec. rewrite via_enc, via_dec, !(fld_on v 0) by lia.
    cbn [c_enc c_dec pair_codec fst snd ftopic_map ft_name ft_parts]. rewrite <- app_assoc.
    destruct string_lawful as (RS & _). rewrite RS by exact H1. cbn [bind].
    change (vec_enc (fpart_codec ec no_error v [] content_codec)) with (c_enc (vec_codec (fpart_codec ec no_error v [] content_codec))).
    change (vec_dec (fpart_codec ec no_error v [] set_codec)) with (c_dec (vec_codec (fpart_codec ec no_error v [] set_codec))).
    rewrite vec_dec_times by (rewrite zlen_map; exact H3).
    rewrite (dec_times_reads _ _ _ _ _ _ _ (fpart_reads ec no_error eok F v Hv)).
    - cbn [bind]. rewrite !map_map. reflexivity.
    - apply Forall_map_iff. eapply Forall_imp; [|exact H2]. intros p Hp. split.
      + eapply fpart_ok_map; [|exact Hp]. intros s [Hs _]. apply held_contents. exact Hs.
      + destruct Hp as (_ & _ & _ & _ & _ & _ & [_ C]). apply clean_nothing. exact C.
  Qed.
  Lemma flat_map_map {A B C} (g : A -> B) (h : B -> list C) l : flat_map h (map g l) = flat_map (fun a => h (g a)) l.
  Proof. induction l as [|a l IH]; cbn; [reflexivity|]. rewrite IH. reflexivity. Qed.
  Lemma fetch_arrives st v corr x : 0 <= v -> in_s 32 corr -> fetch_ok eok (fun s => held st s /\ clean_slice st s) x ->
    zlen (send_fetch ec no_error st v corr x) < 2 ^ 31 ->
    exists m, send_fetch ec no_error st v corr x = framed m /\ is_bytes m
      /\ c_dec (resp_codec (fetch_codec ec no_error v [] set_codec)) m
         = Ok ((corr, fetch_seen v (fetch_map (fun s => decoded (contents st s)) x)), []).
  Proof.
    intros Hv Hc H Hz. assert (fetch_ok eok (held st) x) as HH.
    { eapply fetch_weaken; [|exact H]. intros s [Hs _]. exact Hs. }
    pose proof (fetch_body ec no_error eok F st v x Hv HH) as B. unfold send_fetch in *.
    rewrite (resp_zlen _ _ _ _ _ corr _ B) in Hz. destruct (resp_sent _ _ _ _ _ corr _ B ltac:(lia)) as [Es By].
    eexists. split; [exact Es|]. split; [exact By|]. clear Es By B Hz.
    cbn [c_enc resp_codec pair_codec i32_codec s_codec]. fold i32_codec.
    rewrite corr_dec by exact Hc. unfold fetch_codec. rewrite via_enc, via_dec, !(fld_on v 0) by lia.
    destruct H as (H1 & H2 & H3 & H4 & H5).
    cbn [c_enc c_dec pair_codec fst snd fetch_map fr_throttle fr_error fr_session fr_topics]. rewrite <- (app_nil_r (c_enc (vec_codec (ftopic_codec ec no_error v [] content_codec)) _)), <- ?app_assoc.
    destruct s4_lawful as (R4 & _), (e_lawful ec eok F v Hv) as (RE & _).
    rewrite R4 by exact H1. cbn [bind]. rewrite RE by exact H2. cbn [bind]. rewrite R4 by exact H3. cbn [bind].
    change (vec_enc (ftopic_codec ec no_error v [] content_codec)) with (c_enc (vec_codec (ftopic_codec ec no_error v [] content_codec))).
    change (vec_dec (ftopic_codec ec no_error v [] set_codec)) with (c_dec (vec_codec (ftopic_codec ec no_error v [] set_codec))).
    rewrite vec_dec_times by (rewrite zlen_map; exact H5). rewrite map_length, flat_map_map.
    rewrite (dec_times_reads _ _ _ _ _ _ _ (ftopic_reads st v Hv)).
    - cbn [bind]. unfold fetch_seen, fetch_map. cbn [fr_throttle fr_error fr_session fr_topics]. rewrite map_map. reflexivity.
    - eapply Forall_imp; [|exact H4]. intros t Ht. split; [exact Ht|reflexivity].
  Qed.

  (** One replica per topic *)
  Lemma ptopic_one_reads st v : 0 <= v -> reads
    (fun r : bytes * ppart (E := E) fslice => c_enc (ptopic_codec ec no_error v [] content_codec) (mkPtopic (fst r) [ppart_map (contents st) (snd r)]))
    (c_dec (ptopic_codec ec no_error v [] set_codec))
    (fun r => mkPtopic (fst r) [ppart_map (fun s => decoded (contents st s)) (snd r)])
    (fun r => leftover (contents st (pp_records (snd r))))
    (fun r => str_ok (fst r) /\ ppart_ok eok (held st) (snd r)).
  Proof.
    intros Hv [n p] rest [H1 H2]. cbn [fst snd] in *. unfold ptopic_codec. rewrite via_enc, via_dec, !(fld_on v 0) by lia.
    cbn [c_enc c_dec pair_codec fst snd pt_name pt_parts]. rewrite <- app_assoc.
    destruct string_lawful as (RS & _). rewrite RS by exact H1. cbn [bind].
    change (vec_enc (ppart_codec ec no_error v [] content_codec)) with (c_enc (vec_codec (ppart_codec ec no_error v [] content_codec))).
    change (vec_dec (ppart_codec ec no_error v [] set_codec)) with (c_dec (vec_codec (ppart_codec ec no_error v [] set_codec))).
    rewrite vec_dec_times by reflexivity.
    pose proof (dec_times_reads_last _ _ _ _ _ [] (ppart_map (contents st) p) rest (ppart_reads ec no_error eok F v Hv)) as D.
    cbn [app map] in D. match type of D with _ -> _ -> ?L = _ => match goal with |- context [dec_times ?a ?b ?c] => change (dec_times a b c) with L end end. rewrite D.
    - reflexivity.
    - constructor.
    - eapply ppart_ok_map; [|exact H2]. intros s Hs. apply held_contents. exact Hs.
  Qed.
  Lemma sync_arrives st h init last : rheader_ok h ->
    let reps := init ++ [last] in
    Forall (fun r : bytes * ppart (E := E) fslice => str_ok (fst r) /\ ppart_ok eok (held st) (snd r)) reps -> zlen reps < 2 ^ 31 ->
    zlen (send_sync ec no_error st h (sync_of reps)) < 2 ^ 31 ->
    Forall (fun r => clean_slice st (pp_records (snd r))) init ->
    exists m unread, send_sync ec no_error st h (sync_of reps) = framed m /\ is_bytes m
      /\ request_dec (fun v => sync_codec ec no_error v [] set_codec) m
         = Ok ((h, sync_of (map (fun r => (fst r, ppart_map (fun s => decoded (contents st s)) (snd r))) reps)), unread).
  Proof.
    intros Hh reps H Hn Hz Hc. pose proof Hh as (_ & Hv & _).
    assert (sync_ok eok (held st) (sync_of reps)) as HH.
    { split; [|unfold sync_of; rewrite zlen_map; exact Hn]. unfold sync_of. apply Forall_map_iff.
      eapply Forall_imp; [|exact H]. intros r [R1 R2]. split; [exact R1|]. split; [constructor; [exact R2|constructor]|reflexivity]. }
    pose proof (sync_body ec no_error eok F st (rh_version h) _ ltac:(lia) HH) as B. unfold send_sync in *.
    rewrite (request_zlen _ (file_sync ec) (fun v => c_size (sync_codec ec no_error v no_slice file_set_codec)) (fun v => sync_codec ec no_error v [] content_codec) _ h _ B) in Hz.
    destruct (request_sent _ (file_sync ec) (fun v => c_size (sync_codec ec no_error v no_slice file_set_codec)) (fun v => sync_codec ec no_error v [] content_codec) _ h _ Hh B ltac:(lia)) as [Es By].
    do 2 eexists. split; [exact Es|]. split; [exact By|]. clear Es By B Hz.
    unfold request_dec, request_enc. rewrite rheader_same by lia. rewrite rheader_dec by exact Hh. cbn [bind].
    unfold sync_codec. rewrite !(fld_on _ 0) by lia.
    unfold sync_of. rewrite map_map. rewrite <- (app_nil_r (c_enc (vec_codec _) _)).
    rewrite vec_dec_times by (rewrite zlen_map; exact Hn). rewrite map_length, flat_map_map.
    unfold reps in *. apply Forall_app in H as [Hi Hl]. apply Forall_cons_iff in Hl as [Hl _].
    pose proof (dec_times_reads_last _ _ _ _ _ init last [] (ptopic_one_reads st (rh_version h) (proj1 Hv))) as D.
    cbn [ptopic_map pt_name pt_parts map]. match type of D with _ -> _ -> ?L = _ => match goal with |- context [dec_times ?a ?b ?c] => change (dec_times a b c) with L end end. rewrite D.
    - cbn [bind]. rewrite map_map. reflexivity.
    - apply Forall_forall. intros r Hr. rewrite Forall_forall in Hi, Hc. split; [exact (Hi r Hr)|].
      apply clean_nothing. exact (Hc r Hr).
    - exact Hl.
  Qed.
End Arrive.

Lemma mirror_arrives st h x : rheader_ok h -> mirror_ok (held st) x -> zlen (send_mirror st h x) < 2 ^ 31 ->
  exists m unread, send_mirror st h x = framed m /\ is_bytes m
    /\ request_dec (fun v => mirror_codec v [] set_codec) m = Ok ((h, mirror_map (fun s => decoded (contents st s)) x), unread).
Proof.
  intros Hh H Hz. pose proof Hh as (_ & Hv & _).
  pose proof (mirror_body st (rh_version h) x ltac:(lia) H) as B. unfold send_mirror in *.
  rewrite (request_zlen _ (fun _ => file_mirror) (fun v => c_size (mirror_codec v no_slice file_set_codec)) (fun v => mirror_codec v [] content_codec) _ h _ B) in Hz.
  destruct (request_sent _ (fun _ => file_mirror) (fun v => c_size (mirror_codec v no_slice file_set_codec)) (fun v => mirror_codec v [] content_codec) _ h _ Hh B ltac:(lia)) as [Es By].
  do 2 eexists. split; [exact Es|]. split; [exact By|]. clear Es By B Hz.
  unfold request_dec, request_enc. rewrite rheader_same by lia. rewrite rheader_dec by exact Hh. cbn [bind].
  destruct H as (H1 & H2 & H3). unfold mirror_codec. rewrite via_enc, via_dec, !(fld_on _ 0) by lia.
  cbn [c_enc c_dec pair_codec fst snd mirror_map mq_hw mq_leo mq_records]. rewrite <- ?app_assoc.
  destruct s8_lawful as (R8 & _). rewrite R8 by exact H1. cbn [bind]. rewrite R8 by exact H2. cbn [bind].
  destruct (held_contents st _ H3) as [_ H31].
  pose proof (set_reads (contents st (mq_records x)) [] H31) as SR. rewrite app_nil_r in SR.
  match type of SR with ?L = _ => match goal with |- context [c_dec set_codec ?b] => change (c_dec set_codec b) with L end end. rewrite SR. reflexivity.
Qed.

(** Batches that are completely in the slice arrive as stored. *)
Lemma whole_arrives st s l : on_disk st s l -> Forall raw_batch_ok l ->
  Forall2 (fun b b' => arrived (batch_enc raw_codec b) b b') l (decoded (contents st s)).
Proof.
  intros [H Ec] Hl. pose proof (contents_zlen st s H) as Z1. destruct H as (_ & H & _).
  rewrite Ec in *. destruct (raw_set_roundtrip l [] Hl ltac:(lia)) as (l' & E & A).
  unfold decoded. unfold rset_enc in E. rewrite app_nil_r in E. pose proof (zlen_nonneg (flat_map (batch_enc raw_codec) l)).
  rewrite wrap_s_id in E by (try lia; unfold in_s; change (2 ^ (32 - 1)) with (2 ^ 31); lia). rewrite E. exact A.
Qed.
