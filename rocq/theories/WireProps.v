(** C01, C02, C03: primitive and composite values on the wire. *)
From Verif Require Import Base WireModel WireSpec WireProofs.

(** C01.  Inside the 32-bit range a variable-length integer is written by a
    terminating loop, read back exactly, followed bytes stay, the announced
    size is right, and every cut is reported as end of input. *)
Theorem C01_varint_roundtrip : forall n, in_s 32 n ->
  varint_writes n (varint_encode n)
  /\ (forall rest, varint_decode (varint_encode n ++ rest) = Ok (n, rest))
  /\ varint_size n = zlen (varint_encode n)
  /\ is_bytes (varint_encode n)
  /\ (forall k, (k < length (varint_encode n))%nat -> varint_decode (firstn k (varint_encode n)) = Err Eof).
Proof. exact (fun n H => conj (ex_intro _ varint_fuel (varint_encode_some n H)) (varint_laws n H)). Qed.
Print Assumptions C01_varint_roundtrip.
Example C01_varint_roundtrip_ex : in_s 32 (-300) /\ varint_encode (-300) = [215; 4].
Proof. split; [unfold in_s; lia|vm_compute; reflexivity]. Qed.

(** C01, the finding.  A 64-bit integer is recovered exactly when it fits in 32
    bits: the property as stated (every 64-bit integer) fails for all others. *)
Theorem C01_varint_recovers_only_32_bit : forall n bs rest, in_s 64 n -> varint_writes n bs ->
  varint_decode (bs ++ rest) = Ok (n, rest) -> in_s 32 n.
Proof. exact varint_only_32. Qed.
Print Assumptions C01_varint_recovers_only_32_bit.

Theorem C01_varint_roundtrip_refuted : exists n bs m,
  in_s 64 n /\ varint_writes n bs /\ varint_decode bs = Ok (m, []) /\ m <> n.
Proof. exact varint_roundtrip_refuted. Qed.
Print Assumptions C01_varint_roundtrip_refuted.

(** C01, second finding: for some 64-bit integers the encoding loop never ends. *)
Theorem C01_varint_diverges_refuted : exists n, in_s 64 n /\ forall bs, ~ varint_writes n bs.
Proof. exact varint_diverges_refuted. Qed.
Print Assumptions C01_varint_diverges_refuted.

(** C02.  Every value of every composite type: round trip in sync, exact size,
    and what is written are bytes. *)
Theorem C02_composite_roundtrip : forall t,
  roundtrips (codec_of t) (val_ok t) /\ size_exact (codec_of t) (val_ok t) /\ emits_bytes (codec_of t) (val_ok t).
Proof. exact composite_lawful. Qed.
Print Assumptions C02_composite_roundtrip.

(** C02.  A truncated encoding is never decoded to something else. *)
Theorem C02_truncation_never_decodes : forall t, truncation_yields (fun _ => True) (codec_of t) (val_ok t).
Proof. exact (fun t => composite_trunc (fun _ => True) I I t (or_intror I)). Qed.
Print Assumptions C02_truncation_never_decodes.

(** C02.  Without byte buffers, the truncation is an error value. *)
Theorem C02_truncation_is_an_error : forall t, no_buf t = true ->
  truncation_detected (codec_of t) (val_ok t).
Proof. exact (fun t H => composite_trunc io_error (or_introl eq_refl) (or_intror eq_refl) t (or_introl H)). Qed.
Print Assumptions C02_truncation_is_an_error.

Definition demo_ty := TPair (TMap (KInt U32) (TVec (TInt I32))) (TPair (TOpt TStr) (TPair TVarint TDur)).
Definition demo_val : val demo_ty := ([(0, [5; -6]); (1, [7])], (Some [104; 195; 169], (-9, (3, 999999999)))).
Example C02_ex : val_ok demo_ty demo_val /\ no_buf demo_ty = true
  /\ zlen (c_enc (codec_of demo_ty) demo_val) = 49.
Proof.
  split; [|split; vm_compute; reflexivity].
  cbn. repeat match goal with
  | |- _ /\ _ => split | |- Forall _ _ => constructor | |- True => exact I
  | |- str_ok _ => split | |- dur_ok _ => split
  end; cbn; try reflexivity; unfold in_u, in_s, zlen; cbn; try lia.
  intros k' [<-|[]]. reflexivity. all: contradiction.
Qed.

(** C02, the finding: a truncated byte buffer (or one announcing a length that
    is not there) crashes the decoder instead of reporting an error. *)
Theorem C02_buffer_truncation_refuted : exists s k,
  buf_ok s /\ (k < length (c_enc bytebuf_codec s))%nat
  /\ c_dec bytebuf_codec (firstn k (c_enc bytebuf_codec s)) = Err Panic.
Proof. exact buffer_truncation_refuted. Qed.
Print Assumptions C02_buffer_truncation_refuted.

(** C03.  A valid UTF-8 string stays in sync exactly when it is shorter than
    32768 bytes; the encoder accepts every length. *)
Theorem C03_string_roundtrip_iff : forall s, utf8_valid s = true ->
  ((forall rest, c_dec string_codec (c_enc string_codec s ++ rest) = Ok (s, rest)) <-> zlen s < 2 ^ 15).
Proof. exact string_roundtrip_iff. Qed.
Print Assumptions C03_string_roundtrip_iff.
Example C03_ex : utf8_valid [226; 130; 172; 36] = true /\ zlen [226; 130; 172; 36] < 2 ^ 15.
Proof. split; reflexivity. Qed.

Theorem C03_string_roundtrip_refuted : exists s,
  utf8_valid s = true /\ c_dec string_codec (c_enc string_codec s) = Ok ([], s) /\ s <> [].
Proof. exact string_roundtrip_refuted. Qed.
Print Assumptions C03_string_roundtrip_refuted.
