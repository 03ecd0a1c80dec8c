(** Length-prefixed framing of a connection.
    Models /repo/crates/fluvio-protocol/src/codec/mod.rs. *)
From Verif Require Export WireModel.

(** What one call of the frame decoder does with the receive buffer. *)
Inductive fstep := More | Frame (f rest : bytes) | Crash.

(** [FluvioCodec::decode], codec/mod.rs:30-69.  [packet_len + 4] wraps in i32
    (release build) and is then cast to usize.  [split_off(4)] panics on a buffer
    shorter than 4 bytes, that is when [packet_len + 4 < 4]. *)
Definition frame_dec (buf : bytes) : fstep :=
  if zlen buf <? 4 then More
  else match c_dec i32_codec buf with
       | Err _ => Crash
       | Ok (packet_len, _) =>
           let n := as_usize (wrap_s 32 (packet_len + 4)) in
           if n <=? zlen buf then
             if n <? 4 then Crash else Frame (zdrop 4 (ztake n buf)) (zdrop n buf)
           else More
       end.

(** Receiving side of the framed stream (tokio_util [FramedRead]): after every
    read the decoder is called until it asks for more.  Every frame consumes at
    least 4 bytes, so a fuel of the buffer length suffices. *)
Inductive conn := Waiting (buf : bytes) | Crashed.
Fixpoint drain (fuel : nat) (buf : bytes) : list bytes * conn :=
  match frame_dec buf with
  | More => ([], Waiting buf)
  | Crash => ([], Crashed)
  | Frame f rest =>
      match fuel with
      | O => ([], Waiting buf)
      | S n => let (fs, c) := drain n rest in (f :: fs, c)
      end
  end.
Definition on_read (c : conn) (chunk : bytes) : list bytes * conn :=
  match c with
  | Crashed => ([], Crashed)
  | Waiting buf => let b := buf ++ chunk in drain (length b) b
  end.
Fixpoint receive (c : conn) (chunks : list bytes) : list bytes * conn :=
  match chunks with
  | [] => ([], c)
  | ch :: t => let (fs, c1) := on_read c ch in
               let (fs', c2) := receive c1 t in (fs ++ fs', c2)
  end.

(** [Encoder<FluvioCodecData<T>>::encode], codec/mod.rs:84-103: the announced
    size of the value (i32), then its bytes. *)
Definition frame_enc {A} (c : codec A) (a : A) : bytes :=
  be_enc 4 (wrap_s 32 (c_size c a)) ++ c_enc c a.
