(** What sending records from files is expected to do. *)
From Verif Require Import FileModel WireSpec RecordSpec FrameSpec.

(** The part of a file the slice names exists, and its length fits the length
    prefix. *)
Definition held (st : files) (s : fslice) : Prop :=
  0 <= f_pos s /\ 0 <= f_len s < 2 ^ 31 /\ f_pos s + f_len s <= zlen (st (f_fd s)) /\ is_bytes (st (f_fd s)).
(** It holds exactly these batches. *)
Definition on_disk (st : files) (s : fslice) (l : list (batch bytes)) : Prop :=
  held st s /\ contents st s = flat_map (batch_enc raw_codec) l.

(** The batches a receiver reads from the bytes of a record set. *)
Definition decoded (c : bytes) : list (batch bytes) :=
  match rset_dec raw_codec [] (be_enc 4 (zlen c) ++ c) with Ok (l, _) => l | Err _ => [] end.

(** Errors are encoded faithfully in every version. *)
Definition faithful {A} (ec : Z -> codec A) (ok : A -> Prop) : Prop :=
  forall v, 0 <= v -> roundtrips (ec v) ok /\ size_exact (ec v) ok /\ emits_bytes (ec v) ok.

(** The same message with other records in it, and a message all of whose
    fields are in range. *)
Section Parts.
  Context {E : Type} (eok : E -> Prop).

  Definition fpart_map {A B} (f : A -> B) (p : fpart (E := E) A) : fpart (E := E) B :=
    mkFpart (fp_index p) (fp_error p) (fp_hw p) (fp_next p) (fp_start p) (fp_aborted p) (f (fp_records p)).
  Definition stream_map {A B} (f : A -> B) (s : stream_resp (E := E) A) : stream_resp (E := E) B :=
    mkStream (sr_topic s) (sr_id s) (fpart_map f (sr_part s)).
  Definition ftopic_map {A B} (f : A -> B) (t : ftopic (E := E) A) : ftopic (E := E) B :=
    mkFtopic (ft_name t) (map (fpart_map f) (ft_parts t)).
  Definition fetch_map {A B} (f : A -> B) (r : fetch_resp (E := E) A) : fetch_resp (E := E) B :=
    mkFetch (fr_throttle r) (fr_error r) (fr_session r) (map (ftopic_map f) (fr_topics r)).
  Definition ppart_map {A B} (f : A -> B) (p : ppart (E := E) A) : ppart (E := E) B :=
    mkPpart (pp_index p) (pp_error p) (pp_hw p) (pp_leo p) (f (pp_records p)).
  Definition ptopic_map {A B} (f : A -> B) (t : ptopic (E := E) A) : ptopic (E := E) B :=
    mkPtopic (pt_name t) (map (ppart_map f) (pt_parts t)).

  Definition fpart_ok {A} (okr : A -> Prop) (p : fpart (E := E) A) : Prop :=
    in_u 32 (fp_index p) /\ eok (fp_error p) /\ in_s 64 (fp_hw p) /\ in_s 64 (fp_next p) /\ in_s 64 (fp_start p)
    /\ match fp_aborted p with
       | Some l => Forall (fun t => in_s 64 (fst t) /\ in_s 64 (snd t)) l /\ zlen l < 2 ^ 31
       | None => True
       end
    /\ okr (fp_records p).
  Definition stream_ok {A} (okr : A -> Prop) (s : stream_resp (E := E) A) : Prop :=
    str_ok (sr_topic s) /\ in_u 32 (sr_id s) /\ fpart_ok okr (sr_part s).
  Definition ftopic_ok {A} (okr : A -> Prop) (t : ftopic (E := E) A) : Prop :=
    str_ok (ft_name t) /\ Forall (fpart_ok okr) (ft_parts t) /\ zlen (ft_parts t) < 2 ^ 31.
  Definition fetch_ok {A} (okr : A -> Prop) (f : fetch_resp (E := E) A) : Prop :=
    in_s 32 (fr_throttle f) /\ eok (fr_error f) /\ in_s 32 (fr_session f)
    /\ Forall (ftopic_ok okr) (fr_topics f) /\ zlen (fr_topics f) < 2 ^ 31.
  Definition ppart_ok {A} (okr : A -> Prop) (p : ppart (E := E) A) : Prop :=
    in_u 32 (pp_index p) /\ eok (pp_error p) /\ in_s 64 (pp_hw p) /\ in_s 64 (pp_leo p) /\ okr (pp_records p).
  Definition ptopic_ok {A} (okr : A -> Prop) (t : ptopic (E := E) A) : Prop :=
    str_ok (pt_name t) /\ Forall (ppart_ok okr) (pt_parts t) /\ zlen (pt_parts t) < 2 ^ 31.
  Definition sync_ok {A} (okr : A -> Prop) (l : list (ptopic (E := E) A)) : Prop :=
    Forall (ptopic_ok okr) l /\ zlen l < 2 ^ 31.
End Parts.
Definition mirror_map {A B} (f : A -> B) (m : mirror_req A) : mirror_req B :=
  mkMirrorReq (mq_hw m) (mq_leo m) (f (mq_records m)).
Definition mirror_ok {A} (okr : A -> Prop) (m : mirror_req A) : Prop :=
  in_s 64 (mq_hw m) /\ in_s 64 (mq_leo m) /\ okr (mq_records m).
Definition rheader_ok (h : rheader) : Prop :=
  in_u 16 (rh_key h) /\ 0 <= rh_version h < 2 ^ 15 /\ in_s 32 (rh_corr h) /\ str_ok (rh_client h).

(** What the receiver of version [v] sees: the offset at which to go on is
    known from version 11 on only. *)
Definition fpart_seen {E A} (v : Z) (p : fpart (E := E) A) : fpart (E := E) A :=
  if 11 <=? v then p
  else mkFpart (fp_index p) (fp_error p) (fp_hw p) 0 (fp_start p) (fp_aborted p) (fp_records p).
Definition stream_seen {E A} (v : Z) (s : stream_resp (E := E) A) : stream_resp (E := E) A :=
  mkStream (sr_topic s) (sr_id s) (fpart_seen v (sr_part s)).
Definition fetch_seen {E A} (v : Z) (f : fetch_resp (E := E) A) : fetch_resp (E := E) A :=
  mkFetch (fr_throttle f) (fr_error f) (fr_session f)
          (map (fun t => mkFtopic (ft_name t) (map (fpart_seen v) (ft_parts t))) (fr_topics f)).

(** Where the batches [l], cut after [k] bytes, can be cut so that a receiver
    has read all [k] bytes: between two batches, between two integers of a
    batch header, or anywhere in the records of a batch. *)
Definition field_ends : list Z := [0; 8; 12; 16; 17; 21; 23; 27; 35; 43; 51; 53; 57].
Fixpoint clean_cut (l : list (batch bytes)) (k : Z) : Prop :=
  match l with
  | [] => k = 0
  | b :: t =>
      let n := zlen (batch_enc raw_codec b) in
      if n <=? k then clean_cut t (k - n)
      else In k field_ends \/ 57 + (if has_schema (b_hdr b) then 4 else 0) <= k
  end.
(** A slice that holds batches and ends at such a place, for any cut. *)
Definition cut_at (c : bytes) (l : list (batch bytes)) (k : Z) : Prop :=
  Forall raw_batch_ok l /\ 0 <= k <= zlen (flat_map (batch_enc raw_codec) l) /\ k < 2 ^ 31
  /\ c = ztake k (flat_map (batch_enc raw_codec) l).
(** A slice of a file that ends at a place where nothing is left unread. *)
Definition clean_slice (st : files) (s : fslice) : Prop := exists l k, cut_at (contents st s) l k /\ clean_cut l k.
