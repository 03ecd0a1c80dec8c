(** What it means that every partition that can have a leader has one. *)
From Verif Require Import Base ControlModel ControlSpec HealthModel ElectModel.

(** Server [k] is shown online. *)
Definition up (s : elects) (k : Z) : Prop := In (k, SOnline) (e_spus s).
Definition led (s : elects) (p : partition) : Prop := up s (ps_leader (pt_spec p)).
(** A server that is up could lead: it is a replica and close to the last leader. *)
Definition could_lead (s : elects) (p : partition) : Prop :=
  exists r, In r (st_replicas (pt_status p)) /\ up s (r_spu r) /\ lag (st_leader (pt_status p)) r < 4.

(** Nothing is going on. *)
Definition idle (s : elects) : Prop :=
  e_changed s = [] /\ e_todo s = [] /\ e_acc s = [] /\ e_queue s = [].

(** The runs whose steps satisfy [ok]. *)
Inductive eruns (ok : elects -> elect_act -> Prop) (s : elects) : elects -> Prop :=
| eruns_start : eruns ok s s
| eruns_step : forall a s1 s2, eruns ok s s1 -> ok s1 a -> estep s1 a = Some s2 -> eruns ok s s2.

(** Offsets that servers report are offsets. *)
Definition plausible (s : elects) (a : elect_act) : Prop :=
  match a with EReport _ o => sane o | _ => True end.

(** Steps the controller takes by itself. *)
Definition internal (a : elect_act) : Prop :=
  match a with EStart _ | EElect | ESend | EApply => True | _ => False end.

Definition about (k : Z) (a : eaction) : Prop :=
  match a with UpdateSpec k' _ | UpdateStatus k' _ => k' = k end.
(** No pass is running and nothing about partition [k] waits to be applied. *)
Definition undisturbed (s : elects) (k : Z) : Prop :=
  e_todo s = [] /\ ~ Exists (about k) (e_acc s ++ e_queue s).
Definition by_leader (s : elects) (k : Z) : Prop :=
  forall p, In p (e_parts s) -> pt_key p = k -> led s p.

(** The dispatcher keeps up: a pass starts when all actions of the last one have been
    applied, and a leader that is up reports when nothing else about its partition is
    under way.  No storage is full, no server is removed, the controller does not
    restart. *)
Definition prompt (s : elects) (a : elect_act) : Prop :=
  plausible s a /\
  match a with
  | EStart _ => e_queue s = []
  | EReport k o => undisturbed s k /\ by_leader s k
  | EResolution k r => undisturbed s k /\ by_leader s k /\ r <> POutOfStorage
  | EDelete _ | ERestart => False
  | _ => True
  end.

(** A replica that is up could lead the partition, but its leader is not up. *)
Definition neglected (s : elects) (p : partition) : Prop :=
  In p (e_parts s) /\ ~ led s p /\ could_lead s p.

(** Prompt, but a pass may start before the actions of the last one are applied. *)
Definition race_ok (s : elects) (a : elect_act) : Prop := prompt s a \/ exists o, a = EStart o.
(** Prompt, but the storage of a leader may be full. *)
Definition storage_ok (s : elects) (a : elect_act) : Prop :=
  prompt s a \/ exists k, a = EResolution k POutOfStorage /\ undisturbed s k /\ by_leader s k.
(** Prompt, but the controller may restart. *)
Definition restart_ok (s : elects) (a : elect_act) : Prop := prompt s a \/ a = ERestart.
(** Prompt, but servers may be removed. *)
Definition deleted_ok (s : elects) (a : elect_act) : Prop := prompt s a \/ exists k, a = EDelete k.
