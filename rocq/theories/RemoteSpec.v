(** What remote clusters are to have of their home (C96, C97). *)
From Verif Require Import Base RemoteModel.
Require Import List. Import ListNotations.

(** The stores are maps: keys occur once, and so do the ids of SPUs. *)
Definition home_ok (h : home) : Prop := NoDup (map fst (h_topics h)) /\ NoDup (map s_id (h_spus h)).
Definition remote_ok (r : remote) : Prop := NoDup (map fst (r_topics r)).

(** The home [h] has a topic [k], described by [w], that it mirrors with the remote
    [r]: the [i]-th partition is the one for [r], and it is on a registered SPU. *)
Definition told (h : home) (r k : name) (w : wrapper) : Prop :=
  exists t parts source i others,
    In (k, t) (h_topics h) /\ sp_replicas (t_spec t) = RHome parts source
    /\ nth_error parts i = Some r /\ ~ In r (firstn i parts)
    /\ at_index (t_map t) (Z.of_nat i) = Some (s_id (w_spu w) :: others)
    /\ In (w_spu w) (h_spus h) /\ w_key w = k /\ w_spec w = t_spec t.

(** A topic of a remote that mirrors one of the home [id]. *)
Definition mirror_of (id : name) (t : topic) : Prop := exists spus target, sp_replicas (t_spec t) = RRemote spus id target.
(** Where it gets its records from, or sends them to. *)
Definition from_ (s : spu) (id : name) (target : bool) (t : topic) : Prop := sp_replicas (t_spec t) = RRemote [s] id target.

(** The remote has a mirror of every topic of the home that is for it, towards the
    SPU that has it, and no other mirrors of this home. *)
Definition in_sync (h : home) (g : registration) (r : remote) : Prop :=
  (forall k w parts source, told h (g_remote g) k w -> sp_replicas (w_spec w) = RHome parts source ->
     exists t, get k (r_topics r) = Some t /\ from_ (w_spu w) (g_id g) source t)
  /\ (forall k t, get k (r_topics r) = Some t -> mirror_of (g_id g) t -> exists w, told h (g_remote g) k w).

(** Nothing is changed by users. *)
Definition calm (m : move) : Prop := match m with HomeDoes _ | RemoteDoes _ => False | _ => True end.
Definition calm_uncut (m : move) : Prop := calm m /\ m <> Cut.
Definition uncut (m : move) : Prop := match m with Cut | Connect _ => False | _ => True end.

Definition queue (s : sys) : list (list wrapper) := match y_conn s with Some c => c_queue c | None => [] end.
(** Messages that were sent and not handled yet. *)
Definition pending (s : sys) : Z := zlen (queue s) + match y_work s with Some _ => 1 | None => 0 end.

(** A name that occurs in what the remote has still to handle. *)
Definition task_name (t : task) : name := match t with TDelete k => k | TSync w => w_key w end.
Definition named (s : sys) (k : name) : Prop :=
  (exists m w, In m (queue s) /\ In w m /\ w_key w = k)
  \/ (exists g l t, y_work s = Some (g, l) /\ In t l /\ task_name t = k).

(** A topic is as before, except for its status (or there is none, as before), and
    its partitions are still there. *)
Definition kept (k : name) (r r' : remote) : Prop :=
  option_map t_spec (get k (r_topics r')) = option_map t_spec (get k (r_topics r))
  /\ (forall i x, In ((k, i), x) (r_parts r) -> In ((k, i), x) (r_parts r')).

Definition nothing_at (r : remote) (k : name) : Prop :=
  get k (r_topics r) = None /\ forall i x, ~ In ((k, i), x) (r_parts r).

(** States that come up, starting without a connection. *)
Definition reached (s : sys) : Prop :=
  exists s0 l, y_conn s0 = None /\ y_work s0 = None /\ run s0 l = Some s.
(** The remote has the home [g], which knows it and has its stores. *)
Definition paired (s : sys) (g : registration) : Prop :=
  home_ok (y_home s) /\ remote_ok (y_remote s) /\ home_of (y_remote s) = Some g
  /\ (forall c, y_conn s = Some c -> c_reg c = g).
Definition known (s : sys) (g : registration) : Prop :=
  get (g_remote g) (h_mirrors (y_home s)) = Some (MRemote (g_remote g)) /\ h_changed (y_home s) = true.
