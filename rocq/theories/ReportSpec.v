(** What it means that the controller shows what the leader has. *)
From Verif Require Import Base ControlModel ReportModel.

(** Offsets of a leader are never unknown; its followers are other servers, each once. *)
Definition sound (i : lead_info) : Prop :=
  0 <= li_me i /\ 0 <= li_hw i /\ 0 <= li_leo i /\
  NoDup (map r_spu (li_followers i)) /\ Forall (fun f => 0 <= r_spu f /\ r_spu f <> li_me i) (li_followers i).

(** The status shows the leader's offsets and size, and each follower as the leader knows it. *)
Definition reflects (sh : shown) (i : lead_info) : Prop :=
  st_leader (sh_part sh) = {| r_spu := li_me i; r_hw := li_hw i; r_leo := li_leo i |} /\
  sh_size sh = li_size i /\
  forall f, In f (li_followers i) -> r_hw f <> -1 -> r_leo f <> -1 ->
    forall r, (In r (st_replicas (sh_part sh)) /\ r_spu r = r_spu f) <-> r = f.

(** No report is being made, waits or is on the way. *)
Definition quiet (s : reps) : Prop :=
  m_tasks s = [] /\ m_sink s = [] /\ (m_wire s = None \/ m_wire s = Some []) /\ m_marks s = [] /\ m_queue s = [].

(** The runs whose steps satisfy [ok]. *)
Inductive mruns (ok : reps -> rep_act -> Prop) (s : reps) : reps -> Prop :=
| mruns_start : mruns ok s s
| mruns_step : forall a s1 s2, mruns ok s s1 -> ok s1 a -> mstep s1 a = Some s2 -> mruns ok s s2.

Definition keys {A} (l : list (Z * A)) : list Z := map fst l.
Definition flying (s : reps) : list (Z * lrs) := match m_wire s with Some w => concat w | None => [] end.

(** Reports of one partition are made one after the other; nothing is lost on the way;
    the controller's own changes of a status do not overlap with reports; the controller
    knows the partitions; retention deletes nothing. *)
Definition careful (s : reps) (a : rep_act) : Prop :=
  match a with
  | MDrop k => ~ In k (keys (m_lead s)) /\ ~ In k (keys (m_tasks s)) /\ ~ In k (keys (m_sink s)) /\ ~ In k (keys (flying s))
  | MLead k i => sound i /\ In k (keys (m_store s)) /\ ~ In k (keys (m_tasks s))
  | MStop k => ~ In k (keys (m_tasks s))
  | MChange k i => sound i /\ ~ In k (keys (m_tasks s))
  | MClean _ _ _ => False
  | MLost => m_sink s = [] /\ flying s = []
  | MBreak => flying s = []
  | MReceive => forall k, In k (keys (m_marks s)) -> match m_wire s with Some (msg :: _) => ~ In k (keys msg) | _ => True end
  | MMark k _ => ~ In k (keys (m_queue s))
  | MScRestart => flying s = [] /\ m_marks s = [] /\ m_queue s = []
  | _ => True
  end.

(** Steps that are not changes of the leader's state, of who leads or of the partitions. *)
Definition passive (a : rep_act) : Prop :=
  match a with
  | MTask _ | MTick | MLost | MBreak | MConnect | MReceive | MMark _ _ | MSendMark | MApply | MScRestart => True
  | _ => False
  end.
(** Steps with which what is under way gets done. *)
Definition onward (a : rep_act) : Prop :=
  match a with MTask _ | MTick | MConnect | MReceive | MSendMark | MApply => True | _ => False end.

(** The controller shows a log end of partition [k] that is not the leader's. *)
Definition stale (s : reps) (k : Z) : Prop :=
  exists i sh, In (k, i) (m_lead s) /\ In (k, sh) (m_store s) /\ r_leo (st_leader (sh_part sh)) <> li_leo i.

(** Careful, but a connection may break while reports are on the way. *)
Definition lost_ok (s : reps) (a : rep_act) : Prop := careful s a \/ a = MBreak.
(** Careful, but sending may fail. *)
Definition unsent_ok (s : reps) (a : rep_act) : Prop := careful s a \/ a = MLost.
(** Careful, but the controller may delete a partition the server still leads. *)
Definition unknown_ok (s : reps) (a : rep_act) : Prop := careful s a \/ exists k, a = MDrop k.
(** Careful, but reports of one partition may be made at the same time. *)
Definition overlap_ok (s : reps) (a : rep_act) : Prop := careful s a \/ exists k i, a = MChange k i /\ sound i.
(** Careful, but the controller may change a status while a report waits to be applied. *)
Definition mark_ok (s : reps) (a : rep_act) : Prop := careful s a \/ exists k r, a = MMark k r.
(** Careful, but retention may delete. *)
Definition clean_ok (s : reps) (a : rep_act) : Prop := careful s a \/ exists k size base, a = MClean k size base.
