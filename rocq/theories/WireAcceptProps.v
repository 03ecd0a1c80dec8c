(** C63: what the decoders accept. *)
From Verif Require Import Base WireModel WireSpec WireProofs WireAcceptSpec WireAcceptProofs.

(** Integers, booleans, byte buffers, options and structs of these: the only
    bytes that are read as a value are the bytes written for it.  Two different
    messages are never taken for the same one. *)
Theorem C63_one_encoding : forall t, plain t = true -> canonical (codec_of t).
Proof. exact composite_canonical. Qed.
Print Assumptions C63_one_encoding.

Definition strict_ty := TPair (TOpt (TInt I16)) (TPair TBool TBuf).
Example C63_one_encoding_ex : plain strict_ty = true
  /\ c_dec (codec_of strict_ty) [1; 255; 254; 0; 0; 0; 0; 2; 8; 9; 77] = Ok ((Some (-2), (false, [8; 9])), [77])
  /\ c_dec (codec_of strict_ty) [2; 255; 254; 0; 0; 0; 0; 2; 8; 9; 77] = Err InvalidData
  /\ c_dec (codec_of strict_ty) [1; 255; 254; 2; 0; 0; 0; 2; 8; 9; 77] = Err InvalidData.
Proof. split; [reflexivity|]. split; [vm_compute; reflexivity|]. split; vm_compute; reflexivity. Qed.

(** Whatever bytes arrive, a value that is read is a proper one (strings are
    UTF-8, maps have ascending keys, integers fit their type), and writing it
    again gives bytes that are read as the same value. *)
Theorem C63_accepted_values : forall t bs v rest,
  no_varint t = true -> is_bytes bs -> c_dec (codec_of t) bs = Ok (v, rest) ->
  val_ok t v /\ c_dec (codec_of t) (c_enc (codec_of t) v ++ rest) = Ok (v, rest).
Proof. exact accepted. Qed.
Print Assumptions C63_accepted_values.

(** A map sent with entries in any order and with repeated keys is read as the
    ordered map in which each key has the value of its last entry. *)
Theorem C63_last_entry_wins : forall k t es rest,
  Forall (fun e => key_ok k (fst e) /\ val_ok t (snd e)) es -> zlen es < 2 ^ 16 ->
  exists m, c_dec (codec_of (TMap k t)) (sent_map k t es ++ rest) = Ok (m, rest)
    /\ ascending (kcompare k) (map fst m)
    /\ forall x v, In (x, v) m <-> last_for x v es.
Proof. exact repeated_key. Qed.
Print Assumptions C63_last_entry_wins.

Definition loose_map : list (kval KStr * val TBool) := [([98], true); ([97], true); ([98], false)].
Example C63_last_entry_wins_ex :
  Forall (fun e => key_ok KStr (fst e) /\ val_ok TBool (snd e)) loose_map /\ zlen loose_map < 2 ^ 16
  /\ c_dec (codec_of (TMap KStr TBool)) (sent_map KStr TBool loose_map ++ [5]) = Ok ([([97], true); ([98], false)], [5]).
Proof.
  split; [|split; vm_compute; reflexivity].
  repeat constructor; vm_compute; reflexivity.
Qed.

(** The finding: lists, strings, maps, durations and variable-length integers
    have values that are read from two different byte sequences (a negative
    count, a repeated key, nanoseconds above a second, a padded integer). *)
Theorem C63_one_encoding_refuted : forall t,
  t = TVec (TInt U8) \/ t = TStr \/ t = TMap (KInt U8) TBool \/ t = TDur \/ t = TVarint ->
  exists bs bs' v, is_bytes bs /\ is_bytes bs' /\ bs <> bs'
    /\ c_dec (codec_of t) bs = Ok (v, []) /\ c_dec (codec_of t) bs' = Ok (v, []).
Proof. exact loose. Qed.
Print Assumptions C63_one_encoding_refuted.
