(** Runs in which the leader changes. *)
From Verif Require Import ReplicationModel ReplicationSpec StorageSpec FailoverModel.

(** A message can hold a segment of whoever leads. *)
Definition members_ok (g : members) : Prop :=
  NoDup (g_replicas g) /\ zlen (g_replicas g) < 2 ^ 16 /\ forall i, config_ok (g_conf g i) /\ c_seg_max (g_conf g i) <= g_max_bytes g.

Inductive fevent :=
  | Act (e : event)
  | Reopen (now : Z) (k : ckpt)
  | Elect (j now : Z) (k : ckpt) (gone : list Z) (late : list msg).

(** A replica that is lost does nothing any more. *)
Definition acts (g : members) (y : system) (e : event) : Prop :=
  match e with
  | Deliver i _ _ | Report i | CleanFollower i _ | RestartFollower i _ _ => follower (led_by g (y_leader y)) i /\ ~ In i (y_lost y)
  | _ => True
  end.

Inductive fstep (g : members) (y : system) : fevent -> system -> Prop :=
  | fstep_act e s' : acts g y e -> step (led_by g (y_leader y)) (y_cluster y) e s' ->
      fstep g y (Act e) (mkSystem (y_leader y) (y_lost y) s')
  | fstep_reopen now k r :
      0 <= ckpt_value (m_base (r_active (k_leader (y_cluster y)))) k <= get_hw (k_leader (y_cluster y)) ->
      exec (g_conf g (y_leader y)) (k_leader (y_cluster y)) (Restart now k) = Done r ->
      fstep g y (Reopen now k) (mkSystem (y_leader y) (y_lost y) (reopen_leader g (y_cluster y) (y_leader y) r))
  | fstep_elect j now k gone late old :
      follower (led_by g (y_leader y)) j -> ~ In j (y_lost y) -> ~ In j gone -> incl late (k_net (y_cluster y)) ->
      0 <= ckpt_value (m_base (r_active (k_leader (y_cluster y)))) k <= get_hw (k_leader (y_cluster y)) ->
      exec (g_conf g (y_leader y)) (k_leader (y_cluster y)) (Restart now k) = Done old ->
      fstep g y (Elect j now k gone late)
        (mkSystem j (gone ++ y_lost y) (change_leader g (y_cluster y) (y_leader y) j old late)).

Definition begin (g : members) (l : Z) : system := mkSystem l [] (start (led_by g l)).
Inductive fruns (g : members) (P : system -> fevent -> Prop) : system -> system -> Prop :=
  | fruns_none y : fruns g P y y
  | fruns_more y y1 y2 e : fruns g P y y1 -> P y1 e -> fstep g y1 e y2 -> fruns g P y y2.

(** The replicas that take part. *)
Definition takes_part (g : members) (y : system) (i : Z) : Prop := In i (g_replicas g) /\ ~ In i (y_lost y).

(** The replica that is elected has all that any replica has that will take part
    again, and no message of the old leader arrives afterwards. *)
Definition complete (g : members) (y : system) (e : fevent) : Prop :=
  match e with
  | Elect j _ _ gone late => late = [] /\ forall i, takes_part g y i -> ~ In i gone -> get_leo (node y i) <= get_leo (node y j)
  | _ => True
  end.
(** The same without one of the two conditions. *)
Definition complete_but_late (g : members) (y : system) (e : fevent) : Prop :=
  match e with
  | Elect j _ _ gone late => forall i, takes_part g y i -> ~ In i gone -> get_leo (node y i) <= get_leo (node y j)
  | _ => True
  end.
Definition nothing_late (g : members) (y : system) (e : fevent) : Prop :=
  match e with Elect j _ _ gone late => late = [] | _ => True end.
