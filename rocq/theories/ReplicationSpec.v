(** A leader, its followers and the network between them. *)
From Verif Require Import ReplicationModel StorageSpec RecordSpec.

(** [h] is the committed offset for positions [leos] when [n] of them have to
    have reached it: the largest offset reached by [n] of them. *)
Definition reached_by (leos : list Z) (h : Z) : nat := length (filter (fun l => h <=? l) leos).
Definition largest_reached (leos : list Z) (n : nat) (h : Z) : Prop :=
  (n <= reached_by leos h)%nat /\ forall h', h < h' -> (reached_by leos h' < n)%nat.

(** The network keeps every message for ever and may deliver it at any time, any
    number of times or never: loss, duplication and reordering. *)
Inductive msg := ToFollower (to : Z) (m : sync) | ToLeader (from : Z) (p : info).
Record cluster := mkCluster { k_leader : replica; k_views : views; k_follower : Z -> replica; k_net : list msg }.
Definition set_follower (f : Z -> replica) (i : Z) (r : replica) : Z -> replica := fun j => if j =? i then r else f j.

Record params := mkParams {
  p_leader : Z; p_replicas : list Z;
  p_conf : config; p_fconf : Z -> config; p_max_bytes : Z;
}.
Definition params_ok (p : params) : Prop :=
  In (p_leader p) (p_replicas p) /\ NoDup (p_replicas p) /\ zlen (p_replicas p) < 2 ^ 16
  /\ config_ok (p_conf p) /\ (forall i, config_ok (p_fconf p i)) /\ 0 <= p_max_bytes p.
Definition follower (p : params) (i : Z) : Prop := In i (p_replicas p) /\ i <> p_leader p.

Inductive event :=
  | Produce (now : Z) (l : list (batch bytes))
  | Send (to : Z) (seen : info)
  | Deliver (to now : Z) (m : sync)
  | Report (from : Z)
  | Receive (from : Z) (q seen : info)
  | CleanLeader (a : op)
  | CleanFollower (i : Z) (a : op)
  | RestartFollower (i now : Z) (k : ckpt).

(** The position the leader worked with was read at some earlier time: no value
    is newer than the present one, and the watermark not older than the one the
    leader started with. *)
Definition seen_before (s : cluster) (seen : info) : Prop :=
  0 <= i_hw seen <= get_hw (k_leader s) /\ i_leo seen <= get_leo (k_leader s).

Definition cleaning (a : op) : Prop := a = CleanSize \/ exists now, a = CleanTtl now.

(** What can happen, and the next state. *)
Inductive step (p : params) (s : cluster) : event -> cluster -> Prop :=
  | step_produce now l :
      Forall raw_batch_ok l -> Forall (fun b => has_schema (b_hdr b) = false) l -> room (k_leader s) l ->
      step p s (Produce now l)
        (mkCluster (fst (leader_write (p_conf p) now (in_sync_replica (p_replicas p)) (k_leader s) l)) (k_views s) (k_follower s) (k_net s))
  | step_send i seen m : follower p i -> seen_before s seen ->
      follower_updates seen (k_leader s) (k_views s) i (p_max_bytes p) = Some m ->
      step p s (Send i seen) (mkCluster (k_leader s) (k_views s) (k_follower s) (ToFollower i m :: k_net s))
  | step_deliver i now m : In (ToFollower i m) (k_net s) -> room (k_follower s i) (receive (s_records m)) ->
      step p s (Deliver i now m)
        (mkCluster (k_leader s) (k_views s) (set_follower (k_follower s) i (deliver (p_fconf p i) now (k_follower s i) m)) (k_net s))
  | step_report i : follower p i ->
      step p s (Report i) (mkCluster (k_leader s) (k_views s) (k_follower s) (ToLeader i (as_offset (k_follower s i)) :: k_net s))
  | step_receive i q seen r v : In (ToLeader i q) (k_net s) -> seen_before s seen ->
      update_states_from_followers (in_sync_replica (p_replicas p)) seen (k_leader s) (k_views s) i q = (r, v) ->
      step p s (Receive i q seen) (mkCluster r v (k_follower s) (k_net s))
  | step_clean_leader a r : cleaning a -> op_ok (p_conf p) (k_leader s) a -> exec (p_conf p) (k_leader s) a = Done r ->
      step p s (CleanLeader a) (mkCluster r (k_views s) (k_follower s) (k_net s))
  | step_clean_follower i a r : cleaning a -> op_ok (p_fconf p i) (k_follower s i) a -> exec (p_fconf p i) (k_follower s i) a = Done r ->
      step p s (CleanFollower i a) (mkCluster (k_leader s) (k_views s) (set_follower (k_follower s) i r) (k_net s))
  | step_restart_follower i now k r :
      (** the checkpoint holds a watermark the follower had *)
      0 <= ckpt_value (m_base (r_active (k_follower s i))) k <= get_hw (k_follower s i) ->
      exec (p_fconf p i) (k_follower s i) (Restart now k) = Done r ->
      step p s (RestartFollower i now k) (mkCluster (k_leader s) (k_views s) (set_follower (k_follower s) i r) (k_net s)).

Definition start (p : params) : cluster :=
  mkCluster (fresh (p_conf p) 0) (initial_views (p_leader p) (p_replicas p)) (fun i => fresh (p_fconf p i) 0) [].
Inductive runs (p : params) (P : event -> Prop) : cluster -> cluster -> Prop :=
  | runs_none s : runs p P s s
  | runs_more s s1 s2 e : runs p P s s1 -> P e -> step p s1 e s2 -> runs p P s s2.
Definition all_events (e : event) : Prop := True.
Definition no_restart (e : event) : Prop := match e with RestartFollower _ _ _ => False | _ => True end.
Definition reachable (p : params) (s : cluster) : Prop := runs p all_events (start p) s.

(** [r] holds the log [H] from its beginning, except for what its retention has
    removed. *)
Definition holds (r : replica) (H : list (batch bytes)) : Prop :=
  chain 0 H (get_leo r) /\
  exists removed kept, H = removed ++ kept /\ stores r kept /\ chain 0 removed (get_log_start r).

(** [b'] is [b] with less of its payload. *)
Definition shortened (b b' : batch bytes) : Prop :=
  b_base b' = b_base b /\ records_len b' = records_len b /\ h_attr (b_hdr b') = h_attr (b_hdr b)
  /\ exists k, b_recs b' = ztake k (b_recs b).

(** [b] is not behind [a]. *)
Definition advanced (a b : replica) : Prop := get_leo a <= get_leo b /\ get_hw a <= get_hw b.
Definition not_behind (p : params) (s s' : cluster) : Prop :=
  advanced (k_leader s) (k_leader s')
  /\ (forall i, follower p i -> advanced (k_follower s i) (k_follower s' i))
  /\ forall i q, view i (k_views s) = Some q -> exists q', view i (k_views s') = Some q' /\ i_hw q <= i_hw q' /\ i_leo q <= i_leo q'.

(** The events of replication, without writes, retention and restarts. *)
Definition exchange (e : event) : Prop :=
  match e with Send _ _ | Deliver _ _ _ | Report _ | Receive _ _ _ => True | _ => False end.

(** A leader that starts again with storage [r]: it knows nothing about its
    followers, and messages sent to it before are lost. *)
Definition restarted_leader (p : params) (s : cluster) (r : replica) : cluster :=
  mkCluster r (initial_views (p_leader p) (p_replicas p)) (k_follower s) [].
Definition exchange_or_produce (e : event) : Prop := exchange e \/ exists now l, e = Produce now l.

(** Follower [i] accepts every batch that fits in a segment of the leader. *)
Definition accepts (p : params) (i : Z) : Prop :=
  c_seg_max (p_conf p) <= c_seg_max (p_fconf p i) /\ c_seg_max (p_conf p) <= c_req_max (p_fconf p i).
