(** The theorems about the table of consumer offsets (C49). *)
From Verif Require Import KvModel KvSpec StorageSpec KvClaims.

(** The table of an SPU that is the only replica, after any history of puts,
    deletes, flushes, retention and restarts: what is reloaded from the log at
    this moment, or after a restart at this moment, is the table; a reload can
    fail only if retention has removed something from the log. *)
Theorem C49_reload : forall th c s, config_ok c -> oruns th c s ->
  match of_open (kv_store (of_kv s)) with
  | Ok s' => same (kv_cache (of_kv s')) (kv_cache (of_kv s))
  | Err _ => 0 < get_log_start (kv_store (of_kv s))
  end.
Proof. exact reload_single. Qed.
Print Assumptions C49_reload.
Theorem C49_restart : forall th c s now r, config_ok c -> oruns th c s ->
  exec c (kv_store (of_kv s)) (Restart now (Value (get_hw (kv_store (of_kv s))))) = Done r ->
  match of_open r with
  | Ok s' => same (kv_cache (of_kv s')) (kv_cache (of_kv s))
  | Err _ => 0 < get_log_start (kv_store (of_kv s))
  end.
Proof. exact restart_single. Qed.
Print Assumptions C49_restart.
Example C49_restart_nonvacuous : config_ok kc /\ oruns 1 kc s7
  /\ kv_cache (of_kv s7) = [(ka, (9, 2)); (kb, (7, 1))] /\ get_leo (kv_store (of_kv s7)) = 6
  /\ exists r, exec kc (kv_store (of_kv s7)) (Restart 5 (Value (get_hw (kv_store (of_kv s7))))) = Done r.
Proof.
  split; [exact kc_ok|]. split; [exact s7_runs|]. split; [vm_compute; reflexivity|]. split; [vm_compute; reflexivity|].
  eexists. vm_compute. reflexivity.
Qed.

(** Any number of replicas: a reload gives the table as it was when the last
    entry below the high watermark was written, if the log still holds
    everything or a flush below the high watermark; otherwise it panics. *)
Theorem C49_as_of : forall c s T, config_ok c -> kruns c s T ->
  (kept (kv_store s) T -> exists t, replay (kv_store s) = Ok t /\ same t (as_of (get_hw (kv_store s)) T))
  /\ (~ kept (kv_store s) T -> replay (kv_store s) = Err Panic).
Proof. exact reload_exact. Qed.
Print Assumptions C49_as_of.
Example C49_as_of_nonvacuous : config_ok kc /\ kruns kc s6 T6 /\ kept (kv_store s6) T6.
Proof. split; [exact kc_ok|]. split; [exact s6_runs|]. left. vm_compute. reflexivity. Qed.

(** With the high watermark at the end of the log that is the present table. *)
Theorem C49_current : forall c s T, config_ok c -> kruns c s T -> get_hw (kv_store s) = get_leo (kv_store s) ->
  match replay (kv_store s) with Ok t => same t (kv_cache s) | Err _ => ~ kept (kv_store s) T end.
Proof. exact reload_current. Qed.
Print Assumptions C49_current.
Example C49_current_nonvacuous : exists T, kruns kc (of_kv s7) T /\ get_hw (kv_store (of_kv s7)) = get_leo (kv_store (of_kv s7)).
Proof. exact (oruns_settled 1 kc s7 kc_ok s7_runs). Qed.

(** A put or delete that is reported as done can be read back, and changes no
    other key. *)
Theorem C49_put : forall th c now only io1 io2 order s k v s' x, of_put th c now only io1 io2 order s k v = (s', true) ->
  lookup x (kv_cache (of_kv s')) = if key_eqb x k then Some v else lookup x (kv_cache (of_kv s)).
Proof. exact put_reads. Qed.
Print Assumptions C49_put.
Theorem C49_delete : forall th c now only io1 io2 order s k s' x, of_delete th c now only io1 io2 order s k = (s', true) ->
  lookup x (kv_cache (of_kv s')) = if key_eqb x k then None else lookup x (kv_cache (of_kv s)).
Proof. exact delete_reads. Qed.
Print Assumptions C49_delete.
Example C49_put_nonvacuous : snd (of_put 1 kc 0 true true true (fun t => t) s7 kb (8, 3)) = true
  /\ snd (of_delete 1 kc 0 true true true (fun t => t) s7 kb) = true.
Proof. split; vm_compute; reflexivity. Qed.

(** A delete that fails to append its entry has removed the key from the table;
    the reload brings it back. *)
Theorem C49_failed_delete_refuted : exists th c s k v s' t,
  config_ok c /\ oruns th c s /\ lookup k (kv_cache (of_kv s)) = Some v
  /\ of_delete th c 0 true false true (fun t => t) s k = (s', false)
  /\ lookup k (kv_cache (of_kv s')) = None
  /\ replay (kv_store (of_kv s')) = Ok t /\ lookup k t = Some v.
Proof. exact failed_delete_refuted. Qed.
Print Assumptions C49_failed_delete_refuted.

(** The process dies after the entry of a put has reached the disk, before the
    high watermark has.  The table comes back without it; after the next put to
    another key a reload has it. *)
Theorem C49_crash_refuted : exists th c s k v v' now n r s1 k2 v2 s2 t,
  config_ok c /\ oruns th c s /\ lookup k (kv_cache (of_kv s)) = Some v /\ v <> v'
  /\ exec c (kv_store (of_kv s)) (Crash now (to_raw (kv_batch [updated k v'])) n (Value (get_hw (kv_store (of_kv s))))) = Done r
  /\ of_open r = Ok s1 /\ lookup k (kv_cache (of_kv s1)) = Some v
  /\ k2 <> k /\ of_put th c 0 true true true (fun t => t) s1 k2 v2 = (s2, true) /\ lookup k (kv_cache (of_kv s2)) = Some v
  /\ replay (kv_store (of_kv s2)) = Ok t /\ lookup k t = Some v'.
Proof. exact crash_refuted. Qed.
Print Assumptions C49_crash_refuted.

(** Retention before the first flush: the table cannot be reloaded. *)
Theorem C49_retention_refuted : exists th c s r k v,
  config_ok c /\ oruns th c s /\ exec c (kv_store (of_kv s)) CleanSize = Done r
  /\ lookup k (kv_cache (of_kv s)) = Some v /\ of_open r = Err Panic.
Proof. exact retention_refuted. Qed.
Print Assumptions C49_retention_refuted.

(** A table that has outgrown the largest batch: puts are reported as failed
    although they were made. *)
Theorem C49_flush_refuted : exists c s k v s' v' s'',
  config_ok c /\ oruns 100 c s
  /\ of_put 100 c 0 true true true (fun t => t) s k v = (s', false) /\ lookup k (kv_cache (of_kv s')) = Some v
  /\ of_put 100 c 0 true true true (fun t => t) s' k v' = (s'', false) /\ lookup k (kv_cache (of_kv s'')) = Some v'.
Proof. exact flush_refuted. Qed.
Print Assumptions C49_flush_refuted.

(** Several replicas: a leader that restarts before the high watermark has
    moved has lost puts it had reported as made. *)
Theorem C49_behind_refuted : exists c s T k v r now,
  config_ok c /\ kruns c s T /\ lookup k (kv_cache s) = Some v /\ get_log_start (kv_store s) = 0
  /\ exec c (kv_store s) (Restart now (Value (get_hw (kv_store s)))) = Done r /\ replay r = Ok [].
Proof. exact behind_refuted. Qed.
Print Assumptions C49_behind_refuted.
