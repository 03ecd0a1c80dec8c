(** Model of a change of leader as it happens at the SPUs of one partition.
    Source: crates/fluvio-spu/src/core/global_context.rs:236-375, 451-490,
    replication/leader/leaders_state.rs:148-168,
    replication/leader/replica_state.rs:100-144,
    replication/follower/state.rs [add_replica].

    Simplifications:
    - the change of the partition reaches all SPUs at the same moment; the old
      leader writes nothing after it;
    - a follower that stays a follower closes its storage and opens it again
      ([switch_leader_for_follower]): that is the event [RestartFollower] of
      [ReplicationSpec], which can happen at any time;
    - an SPU that is down for some time is one to which nothing happens. *)
From Verif Require Export ReplicationModel.
From Verif Require Import ReplicationSpec.

(** The replicas of the partition and the configuration of each. *)
Record members := mkMembers { g_replicas : list Z; g_conf : Z -> config; g_max_bytes : Z }.
Definition led_by (g : members) (l : Z) : params := mkParams l (g_replicas g) (g_conf g l) (g_conf g) (g_max_bytes g).

(** Who leads, which replicas never come back, and the rest. *)
Record system := mkSystem { y_leader : Z; y_lost : list Z; y_cluster : cluster }.
Definition node (y : system) (i : Z) : replica :=
  if i =? y_leader y then k_leader (y_cluster y) else k_follower (y_cluster y) i.

(** [promote] (global_context.rs:236-271) and [promote_follower]
    (leaders_state.rs:148-168): the follower's storage is kept as it is, and the
    positions of the other replicas are unknown ([new] and [ids_to_map],
    replica_state.rs:100-144).  [demote_replica] (global_context.rs:451-465): the
    old leader's storage is opened again from disk ([old]).  [late] are messages
    of the old leader that are still on their way: the receiving side looks up
    the replica by its name only (follower/controller.rs [sync_from_leader]). *)
Definition change_leader (g : members) (s : cluster) (l j : Z) (old : replica) (late : list msg) : cluster :=
  mkCluster (k_follower s j) (initial_views j (g_replicas g)) (set_follower (k_follower s) l old) late.

(** A leader that starts again ([add_leader_replica],
    global_context.rs:307-320): [r] is its storage opened from disk. *)
Definition reopen_leader (g : members) (s : cluster) (l : Z) (r : replica) : cluster :=
  mkCluster r (initial_views l (g_replicas g)) (k_follower s) (k_net s).
