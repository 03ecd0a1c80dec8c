(** What is expected of a mirror. *)
From Verif Require Import StorageSpec RecordSpec ReplicationSpec MirrorModel.

Definition mparams_ok (p : mparams) : Prop := config_ok (m_sconf p) /\ config_ok (m_tconf p) /\ 0 <= m_max p.

(** Batches are well formed and have no schema id, offsets fit (as in C34), and
    retention removes the oldest segments (as in C23). *)
Definition allowed (p : mparams) (s : mirror) (a : act) : Prop :=
  match a with
  | Produce _ l => Forall raw_batch_ok l /\ Forall (fun b => has_schema (b_hdr b) = false) l /\ room (m_src s) l
  | SrcUp (ByAge now) => in_age_order (m_sconf p) now (m_src s)
  | TgtUp (ByAge now) => in_age_order (m_tconf p) now (m_tgt s)
  | Store w _ => forall k l, link_of s w = Some k -> l_checked k = Some l -> room (m_tgt s) l
  | _ => True
  end.

(** Runs all of whose actions satisfy [P]. *)
Inductive runs (p : mparams) (P : mirror -> act -> Prop) : mirror -> mirror -> Prop :=
  | runs_none s : runs p P s s
  | runs_more s s1 s2 a : runs p P s s1 -> P s1 a -> allowed p s1 a -> mstep p s1 a = Some s2 -> runs p P s s2.
Definition start (p : mparams) : mirror := mirror0 (fresh (m_sconf p) 0) (fresh (m_tconf p) 0).

Definition any_act (s : mirror) (a : act) : Prop := True.
(** No task of the target checks a message while another is about to write. *)
Definition links (s : mirror) : list link := (match m_conn s with Some (_, k) => [k] | None => [] end) ++ m_old s.
Definition one_at_a_time (s : mirror) (a : act) : Prop :=
  match a with Check _ => Forall (fun k => l_checked k = None) (links s) | _ => True end.

(** The exchange of messages on the present connection. *)
Definition exchange (s : mirror) (a : act) : Prop :=
  match a with
  | Hear | Learn | Push | Store Present _ => True
  | Check Present => Forall (fun k => l_checked k = None) (links s)
  | _ => False
  end.
(** Nothing is left to do on the present connection. *)
Definition rests (p : mparams) (s : mirror) : Prop :=
  m_conn s <> None /\ forall a, (match a with Hear | Learn | Push | Check Present | Store Present _ => True | _ => False end) -> mstep p s a = None.
(** [n] steps. *)
Inductive steps_n (p : mparams) (P : mirror -> act -> Prop) : nat -> mirror -> mirror -> Prop :=
  | steps_O s : steps_n p P 0 s s
  | steps_S n s a s1 s2 : P s a -> allowed p s a -> mstep p s a = Some s1 -> steps_n p P n s1 s2 -> steps_n p P (S n) s s2.

(** The target accepts every batch that fits in a segment of the source. *)
Definition takes_all (p : mparams) : Prop :=
  c_seg_max (m_sconf p) <= c_seg_max (m_tconf p) /\ c_seg_max (m_sconf p) <= c_req_max (m_tconf p).

(** Another replica becomes the source (the election of a leader), and with it a
    new controller: it holds at least what was committed. *)
Definition failover (s : mirror) (r : replica) (s' : mirror) : Prop :=
  (exists H n, holds (m_src s) H /\ holds r (firstn n H)) /\ get_hw (m_src s) <= get_leo r
  /\ s' = mkMirror r (m_tgt s) (-1) 0 None (m_old (leave s)).
