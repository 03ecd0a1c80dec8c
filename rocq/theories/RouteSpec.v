(** What a client should do to reach the leader of a partition, in terms of what
    the metadata say and of who listens where. *)
Require Import ZArith List Bool.
Import ListNotations.
From Verif Require Import RouteModel.
Open Scope Z_scope.

(** the metadata the client has say that this SPU leads the partition *)
Definition leads (w : world) (p l : Z) : Prop := get p (held (w_parts w)) = Some l.

(** they say that this SPU is to be reached at this address *)
Definition listed (w : world) (l addr : Z) : Prop :=
  exists key s, In (key, s) (held (w_spus w)) /\ s_id s = l /\
    ((w_local w = true /\ s_local s = Some addr) \/ ((w_local w = false \/ s_local s = None) /\ s_public s = addr)).

(** a history, and a point of it at which something was so *)
Definition once (w0 : world) (es : list event) (P : world -> Prop) : Prop :=
  exists before after, es = before ++ after /\ P (run w0 before).

(** the connection was made to the address the metadata had for the SPU, and to
    who listened there *)
Definition made_for (w0 : world) (es : list event) (l : Z) (c : conn) : Prop :=
  once w0 es (fun w => listed w l (n_addr c)) /\
  once w0 es (fun w => get (n_addr c) (w_up w) = Some (n_server c)).

(** the leader of the partition is known, and so is its address, and it is up *)
Definition up (w : world) (p l addr server : Z) : Prop :=
  leads w p l /\
  (exists s, with_id l (held (w_spus w)) = Some s /\ address (w_local w) s = addr) /\
  get addr (w_up w) = Some server /\ w_trying w = None.

(** the connection to the SPU that the pool has, if it has one, is known to have
    ended *)
Definition no_connection (w : world) (l : Z) : Prop :=
  forall c, get l (w_pool w) = Some c -> known_stale w c = true.

(** the end of the connection that the pool has is unknown *)
Definition silent (w : world) (l : Z) : Prop :=
  exists c, get l (w_pool w) = Some c /\ alive w c = false /\ known_stale w c = false.

(** nobody tells the client about this partition *)
Definition no_news (p : Z) (e : event) : Prop :=
  match e with
  | AllParts l => get p l = None
  | ChangeParts l => forall k a, In (Mod k a) l -> k <> p
  | _ => True
  end.

(** the pool has a connection to the SPU, and the server at its other end runs *)
Definition connected (w : world) (l : Z) : Prop := exists c, get l (w_pool w) = Some c /\ alive w c = true.

(** nobody tells the client about any partition *)
Definition topicless (e : event) : Prop :=
  match e with AllParts l => l = [] | ChangeParts l => forall k a, ~ In (Mod k a) l | _ => True end.

(** nothing is taken from the queue of this partition *)
Definition keeps (p : Z) (e : topic_event) : Prop :=
  match e with Sent p' _ => p' <> p | _ => True end.
(** no partition that a flush waits for is flushed *)
Definition unflushed (e : topic_event) : Prop :=
  match e with Flushed _ => False | _ => True end.
