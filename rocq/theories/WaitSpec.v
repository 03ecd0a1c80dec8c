(** When a request has been done. *)
From Verif Require Import Base WaitModel.

(** The runs whose steps satisfy [ok]. *)
Inductive wruns (ok : wait_act -> Prop) (s : waits) : waits -> Prop :=
| wruns_start : wruns ok s s
| wruns_step : forall a s1 s2, wruns ok s s1 -> ok a -> wstep s1 a = Some s2 -> wruns ok s s2.
Definition anything (a : wait_act) : Prop := True.
Definition reachable (s : waits) : Prop := wruns anything no_objects s.

Definition act_key (a : waction) : Z :=
  match a with AUpdateSpec k _ | AUpdateStatus k _ | ADelete k => k end.
Definition event_key (e : wevent) : Z := match e with EMod k _ | EDel k => k end.
(** Nothing about object [k] is under way, and the store has what the storage has. *)
Definition nothing_under_way (s : waits) (k : Z) : Prop :=
  (forall a, In a (x_queue s) -> act_key a <> k) /\ (forall e, In e (x_events s) -> event_key e <> k).
Definition done (c : call) : Prop := exists r, c_phase c = PDone r.

(** Request [i] has just arrived; it is the only one about object [k] that has not been
    answered; nothing about [k] is under way. *)
Definition arrives (s : waits) (i k : Z) (q : request) : Prop :=
  x_calls s i = Some (mkC k q PNew) /\
  (forall j c, x_calls s j = Some c -> c_key c = k -> j <> i -> done c) /\
  nothing_under_way s k /\ x_store s k = x_kv s k.

(** No other request about [k] arrives. *)
Definition no_other (k : Z) (a : wait_act) : Prop :=
  match a with WBegin _ k' _ => k' <> k | _ => True end.
(** And the controllers do not write it either. *)
Definition untouched (k : Z) (a : wait_act) : Prop :=
  no_other k a /\ match a with WStatus k' _ | WRelink k' => k' <> k | _ => True end.

Definition answered (s : waits) (i : Z) (r : answer) : Prop :=
  exists k q, x_calls s i = Some (mkC k q (PDone r)).
(** Both the store and the storage have object [k] with spec [sp]. *)
Definition is_spec (s : waits) (k sp : Z) : Prop :=
  (exists o, x_store s k = Some o /\ w_spec o = sp) /\ (exists o, x_kv s k = Some o /\ w_spec o = sp).
Definition is_gone (s : waits) (k : Z) : Prop := x_store s k = None /\ x_kv s k = None.

(** What a request asks for. *)
Definition wanted (q : request) (before : option wobj) : option Z :=
  match q with
  | RCreate sp | RPut sp => Some sp
  | RAdd n => option_map (fun o => w_spec o + n) before
  | RDelete => None
  end.
Definition is_write (q : request) : Prop := match q with RDelete => False | _ => True end.

(** Request [i] waits, and the change it waits for has not woken it. *)
Definition asleep (s : waits) (i : Z) (c : call) (seen : option Z) : Prop :=
  x_calls s i = Some c /\ exists mark, c_phase c = PWait seen mark /\ x_epoch s <= mark.
(** What a waiting request waits for is in the store. *)
Definition has_come (s : waits) (c : call) (seen : option Z) : Prop :=
  match c_req c with
  | RDelete => x_store s (c_key c) = None
  | _ => exists o, x_store s (c_key c) = Some o /\ match seen with None => True | Some r => r < w_rev o end
  end.
Definition waiting (s : waits) (i : Z) : Prop :=
  exists c seen mark, x_calls s i = Some c /\ c_phase c = PWait seen mark.
(** Nothing is under way at all. *)
Definition at_rest (s : waits) : Prop := x_queue s = [] /\ x_events s = [].
(** The dispatcher's own steps. *)
Definition dispatcher (a : wait_act) : Prop := match a with WAct | WEvent => True | _ => False end.
(** No controller writes. *)
Definition no_controller (a : wait_act) : Prop := match a with WStatus _ _ | WRelink _ => False | _ => True end.
