(** C74: the controller knows which servers are up. *)
From Verif Require Import Base HealthModel HealthSpec HealthClaims.

(** When nothing is going on, a server that has registered is shown online if it is
    connected and offline if it is not.  This needs that the counter is incremented
    by one task at a time, and that a server registers again only after the
    controller has noticed the end of its last connection. *)
Theorem C74_follows : forall spus s k st,
  runs orderly (started spus) s -> quiet s -> In (k, st) (h_spus s) -> registered s k ->
  (connected s k -> st = SOnline) /\ (~ connected s k -> st = SOffline).
Proof. exact follows. Qed.
Print Assumptions C74_follows.

(** A server that is gone is shown offline even if its connections overlapped. *)
Theorem C74_down : forall spus s k st,
  runs one_increment (started spus) s -> quiet s -> In (k, st) (h_spus s) -> registered s k ->
  ~ connected s k -> st = SOffline.
Proof. exact down. Qed.
Print Assumptions C74_down.

(** A server that has not registered since the controller started keeps the status
    it had; a new one is in its initial state. *)
Theorem C74_untouched : forall P spus s k st,
  runs P (started spus) s -> In (k, st) (h_spus s) -> ~ registered s k -> st = SInit \/ In (k, st) spus.
Proof. exact untouched. Qed.
Print Assumptions C74_untouched.

(** If servers neither come nor go, the controller can get there. *)
Theorem C74_settles : forall spus s,
  runs orderly (started spus) s -> exists s', settles orderly s s' /\ quiet s'.
Proof. exact settled. Qed.
Print Assumptions C74_settles.

Example C74_ex : exists s, runs orderly (started three) s /\ quiet s /\
  h_spus s = [(1, SOnline); (2, SOffline); (3, SOnline)] /\
  connected s 1 /\ registered s 2 /\ ~ connected s 2 /\ ~ registered s 3.
Proof. exact day_ok. Qed.

(** After the store has been synced again, which happens every five minutes, the
    statuses are right even if increments of the counter overlapped. *)
Theorem C74_resync : forall spus s s1 s2 l k st,
  runs one_connection (started spus) s -> Forall at_rest (h_conns s) ->
  hstep s HResync = Some s1 -> Forall alone l -> hexec s1 l = Some s2 -> quiet s2 ->
  In (k, st) (h_spus s2) -> registered s2 k ->
  (connected s2 k -> st = SOnline) /\ (~ connected s2 k -> st = SOffline).
Proof. exact after_resync. Qed.
Print Assumptions C74_resync.

Example C74_resync_ex : exists s s1 s2, runs one_connection (started [(1, SInit); (2, SInit); (3, SInit)]) s /\
  quiet s /\ h_spus s = [(1, SOnline); (2, SOnline); (3, SOnline)] /\ ~ connected s 3 /\
  hstep s HResync = Some s1 /\ hexec s1 found = Some s2 /\ quiet s2 /\
  h_spus s2 = [(1, SOnline); (2, SOnline); (3, SOffline)].
Proof. exact resync_ok. Qed.

(** A server that comes back before the controller has noticed the end of its old
    connection is shown offline, for good, although it is connected: the task of the
    old connection notes that the server is down when it ends. *)
Theorem C74_reconnect_refuted : exists spus s k,
  runs one_increment (started spus) s /\ quiet s /\
  for_good s (fun s' => In (k, SOffline) (h_spus s') /\ connected s' k).
Proof. exact reconnect_refuted. Qed.
Print Assumptions C74_reconnect_refuted.

(** If increments of the counter overlap, a server that is gone can stay online until
    the store is synced again: the counter can get back to the value the controller
    has seen. *)
Theorem C74_increments_refuted : exists spus s k,
  runs one_connection (started spus) s /\ quiet s /\ In (k, SOnline) (h_spus s) /\ registered s k /\ ~ connected s k.
Proof. exact increments_refuted. Qed.
Print Assumptions C74_increments_refuted.

(** A server that goes while the controller is down stays online for good. *)
Theorem C74_restart_refuted : exists spus s k,
  runs orderly (started spus) s /\ quiet s /\
  for_good s (fun s' => In (k, SOnline) (h_spus s') /\ ~ registered s' k /\ ~ connected s' k).
Proof. exact restart_refuted. Qed.
Print Assumptions C74_restart_refuted.
