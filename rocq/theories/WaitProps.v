(** C77: a request that is answered has been done. *)
From Verif Require Import Base WaitModel WaitSpec WaitProofs WaitClaims.

Theorem C77_created : forall s0 i k sp s, reachable s0 -> arrives s0 i k (RCreate sp) -> wruns (no_other k) s0 s ->
  answered s i AnsOk -> is_spec s k sp.
Proof. exact created. Qed.
Print Assumptions C77_created.
Example C77_created_ex : reachable (wreached ex_begin) /\ arrives (wreached ex_begin) 1 7 (RCreate 3) /\
  wruns (no_other 7) (wreached ex_begin) (wreached (ex_begin ++ ex_rest)) /\ answered (wreached (ex_begin ++ ex_rest)) 1 AnsOk /\
  x_store (wreached (ex_begin ++ ex_rest)) 7 = Some (mkW 1 3 5).
Proof. exact created_run. Qed.

Theorem C77_deleted : forall s0 i k s, reachable s0 -> arrives s0 i k RDelete -> wruns (no_other k) s0 s ->
  answered s i AnsOk -> is_gone s k.
Proof. exact deleted. Qed.
Print Assumptions C77_deleted.
Example C77_deleted_ex : reachable (wreached ex_del0) /\ arrives (wreached ex_del0) 3 7 RDelete /\
  wruns (no_other 7) (wreached ex_del0) (wreached (ex_del0 ++ ex_del)) /\ answered (wreached (ex_del0 ++ ex_del)) 3 AnsOk.
Proof. exact deleted_run. Qed.

Theorem C77_written : forall s0 i k q sp s, reachable s0 -> arrives s0 i k q -> wanted q (x_kv s0 k) = Some sp ->
  wruns (untouched k) s0 s -> answered s i AnsOk -> is_spec s k sp.
Proof. exact written. Qed.
Print Assumptions C77_written.
Example C77_written_ex : reachable (wreached ex_add0) /\ arrives (wreached ex_add0) 2 7 (RAdd 2) /\
  wanted (RAdd 2) (x_kv (wreached ex_add0) 7) = Some 5 /\
  wruns (untouched 7) (wreached ex_add0) (wreached (ex_add0 ++ ex_add)) /\ answered (wreached (ex_add0 ++ ex_add)) 2 AnsOk /\
  x_store (wreached (ex_add0 ++ ex_add)) 7 = Some (mkW 2 5 5).
Proof. exact added_run. Qed.

Theorem C77_refused : forall s0 i k q sp s, reachable s0 -> arrives s0 i k q -> wanted q (x_kv s0 k) = Some sp ->
  wruns (untouched k) s0 s -> answered s i AnsRefused ->
  x_store s k = x_store s0 k /\ x_kv s k = x_kv s0 k /\ (exists o, x_kv s0 k = Some o) /\ exists sp', q = RCreate sp'.
Proof. exact refused. Qed.
Print Assumptions C77_refused.
Example C77_refused_ex : reachable (wreached ex_ref0) /\ arrives (wreached ex_ref0) 2 7 (RCreate 4) /\
  wruns (untouched 7) (wreached ex_ref0) (wreached (ex_ref0 ++ [WGo 2])) /\ answered (wreached (ex_ref0 ++ [WGo 2])) 2 AnsRefused.
Proof. exact refused_run. Qed.

Theorem C77_awake : forall s i c seen, reachable s -> asleep s i c seen -> ~ has_come s c seen.
Proof. exact never_asleep. Qed.
Print Assumptions C77_awake.
Example C77_awake_ex : reachable (wreached ex_asleep) /\ asleep (wreached ex_asleep) 1 (mkC 7 (RCreate 3) (PWait None 0)) None.
Proof. exact asleep_run. Qed.

Theorem C77_answered : forall s0 i k q s, reachable s0 -> arrives s0 i k q ->
  (wruns (untouched k) s0 s \/ ((q = RDelete \/ exists sp, q = RCreate sp) /\ wruns (no_other k) s0 s)) ->
  nothing_under_way s k -> waiting s i ->
  exists s1 s2, wstep s (WWake i) = Some s1 /\ wstep s1 (WGo i) = Some s2 /\ answered s2 i AnsOk.
Proof. exact comes. Qed.
Print Assumptions C77_answered.
Example C77_answered_ex : reachable (wreached ex_begin) /\ arrives (wreached ex_begin) 1 7 (RCreate 3) /\
  wruns (no_other 7) (wreached ex_begin) (wreached (ex_begin ++ ex_waits)) /\
  nothing_under_way (wreached (ex_begin ++ ex_waits)) 7 /\ waiting (wreached (ex_begin ++ ex_waits)) 1.
Proof. exact waiting_run. Qed.

Theorem C77_works_off : forall s, exists s', wruns dispatcher s s' /\ forall k, nothing_under_way s' k.
Proof. exact worked_off. Qed.
Print Assumptions C77_works_off.

Theorem C77_overwritten_refuted : exists s i j k sp sp', reachable s /\
  x_calls s i = Some (mkC k (RCreate sp) (PDone AnsOk)) /\ x_calls s j = Some (mkC k (RCreate sp') (PDone AnsOk)) /\
  sp <> sp' /\ at_rest s /\ is_spec s k sp'.
Proof. exact overwritten. Qed.
Print Assumptions C77_overwritten_refuted.

Theorem C77_dropped_refuted : exists s0 s i k n sp, reachable s0 /\ arrives s0 i k (RAdd n) /\ n <> 0 /\ is_spec s0 k sp /\
  wruns (no_other k) s0 s /\ answered s i AnsOk /\ at_rest s /\ is_spec s k sp.
Proof. exact dropped. Qed.
Print Assumptions C77_dropped_refuted.

Theorem C77_lost_refuted : exists s0 s i j k sp, reachable s0 /\ at_rest s0 /\ is_spec s0 k sp /\ i <> j /\
  wruns no_controller s0 s /\
  x_calls s0 i = None /\ x_calls s i = Some (mkC k (RAdd 1) (PDone AnsOk)) /\
  x_calls s0 j = None /\ x_calls s j = Some (mkC k (RAdd 1) (PDone AnsOk)) /\
  at_rest s /\ is_spec s k (sp + 1).
Proof. exact lost. Qed.
Print Assumptions C77_lost_refuted.

Theorem C77_late_refuted : exists s0 s s' i k sp, reachable s0 /\ arrives s0 i k (RCreate sp) /\ wruns (untouched k) s0 s /\
  answered s i AnsTimeout /\ is_gone s k /\ wruns dispatcher s s' /\ is_spec s' k sp.
Proof. exact late. Qed.
Print Assumptions C77_late_refuted.

Theorem C77_comes_back_refuted : exists s i k, reachable s /\ x_calls s i = Some (mkC k RDelete (PDone AnsOk)) /\ at_rest s /\
  exists sp, is_spec s k sp.
Proof. exact comes_back. Qed.
Print Assumptions C77_comes_back_refuted.
