(** What users of an SPU's API rely on. *)
From Verif Require Import SpuApiModel WireSpec RecordSpec VersionSpec FileSpec.

(** ** Requests that can be made *)

Definition part_ok (p : Z * list (batch bytes)) : Prop :=
  in_u 32 (fst p) /\ Forall raw_batch_ok (snd p) /\ zlen (flat_map (batch_enc raw_codec) (snd p)) < 2 ^ 31.
Definition topic_ok (t : bytes * list (Z * list (batch bytes))) : Prop :=
  str_ok (fst t) /\ Forall part_ok (snd t) /\ zlen (snd t) < 2 ^ 31.
Definition produce_ok (p : produce) : Prop :=
  match p_txn p with Some s => str_ok s | None => True end
  /\ 0 <= fst (p_timeout p) < 2 ^ 64 /\ 0 <= snd (p_timeout p) < 10 ^ 9
  /\ (Forall topic_ok (p_topics p) /\ zlen (p_topics p) < 2 ^ 31)
  /\ (Forall (fits invocation) (p_modules p) /\ zlen (p_modules p) < 2 ^ 31).
Definition request_ok (r : request) : Prop :=
  match r with RProduce p => produce_ok p | ROther a x => a <> AProduce /\ fits (req_ty a) x end.

(** The timeout in nanoseconds, and the longest that can be sent. *)
Definition nanos (d : Z * Z) : Z := fst d * 10 ^ 9 + snd d.
Definition short_timeout (r : request) : Prop :=
  match r with RProduce p => nanos (p_timeout p) < 2 ^ 31 * 10 ^ 6 | ROther _ _ => True end.
(** Batches with a schema announce too few bytes (C05). *)
Definition no_schemas (r : request) : Prop :=
  match r with
  | RProduce p => Forall (fun t => Forall (fun q => Forall (fun b => has_schema (b_hdr b) = false) (snd q)) (snd t)) (p_topics p)
  | ROther _ _ => True
  end.

(** ** How a request arrives at version [v]: produce requests whole but for the
    part of the timeout below a millisecond, others with the fields of [v]. *)
Definition part_arrives (p q : Z * list (batch bytes)) : Prop :=
  fst q = fst p /\ Forall2 (fun b b' => arrived (batch_enc raw_codec b) b b') (snd p) (snd q).
Definition topic_arrives (t u : bytes * list (Z * list (batch bytes))) : Prop :=
  fst u = fst t /\ Forall2 part_arrives (snd t) (snd u).
Definition produce_arrives (v : Z) (p q : produce) : Prop :=
  p_txn q = p_txn p /\ p_committed q = p_committed p
  /\ nanos (p_timeout q) = nanos (p_timeout p) / 10 ^ 6 * 10 ^ 6
  /\ Forall2 topic_arrives (p_topics p) (p_topics q)
  /\ p_modules q = map (seen v invocation) (p_modules p).
Definition arrives (v : Z) (r r' : request) : Prop :=
  match r, r' with
  | RProduce p, RProduce q => produce_arrives v p q
  | ROther a x, ROther b y => b = a /\ y = seen v (req_ty a) x
  | _, _ => False
  end.

(** A request with its header, as a client makes it. *)
Definition message_ok (m : rheader * request) : Prop :=
  rheader_ok (fst m) /\ rh_key (fst m) = key (api_of (snd m)) /\ request_ok (snd m).

(** Requests that can all be sent. *)
Definition connected (l : list (rheader * request)) : Prop :=
  Forall (fun m => message_ok m /\ short_timeout (snd m) /\ no_schemas (snd m) /\ message_size (fst m) (snd m) < 2 ^ 31 - 4) l.

(** Requests all of whose fields the current version carries: all but produce
    requests, offset requests (whose consumer is no longer sent) and stream
    requests (see C78). *)
Definition carried_whole : list api := [AVersions; AFetch; AUpdateOffsets; AUpdateConsumer; ADeleteConsumer; AFetchConsumers; AStartMirror].

(** ** Answers *)

(** The answers sent from memory. *)
Definition answers_whole : list api := [AVersions; AProduce; AFetchOffsets; AUpdateOffsets; AUpdateConsumer; ADeleteConsumer; AFetchConsumers; AStartMirror].
(** SmartModuleChainInitError(text) *)
Definition chain_error (text : bytes) : uval := UE 6005 (UT [US text]).


(** The partitions of a topic in an answer, [at_] being the position of the
    index among the fields, and the answer that has exactly one entry for the
    partition. *)
Definition topic_name (t : uval) : bytes := as_s (nth 0 (as_t t) empty).
Definition topic_parts (t : uval) : list uval := as_l (nth 1 (as_t t) nil_).
Definition part_index (at_ : nat) (p : uval) : Z := as_i (nth at_ (as_t p) zero).
Definition listed_once (at_ : nat) (l : list uval) : Prop :=
  NoDup (map topic_name l) /\ Forall (fun t => NoDup (map (part_index at_) (topic_parts t))) l.
Definition answered (at_ : nat) (topic : bytes) (index : Z) (l : list uval) (p : uval) : Prop :=
  exists t, In t l /\ topic_name t = topic /\ In p (topic_parts t) /\ part_index at_ p = index.

(** ** What the leader of a partition reports *)
Definition led_ok (s : led) : Prop :=
  forall topic index start hw, s topic index = Some (start, hw) -> 0 <= start <= hw /\ hw < 2 ^ 63.
