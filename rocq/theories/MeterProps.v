(** The counters of an SPU. *)
From Coq Require Import ZArith List Bool Lia Permutation.
Import ListNotations.
From Verif Require Import Base MeterModel MeterSpec MeterProofs.
Open Scope Z_scope.

(** The inbound counters of connectors and of other clients are the records and bytes stored for them since the SPU started. *)
Theorem C119_inbound : forall t l k, Forall keeps l ->
  c_records (side k (s_in (metered (fresh t) l))) = u64 (over (stored k) l) /\
  c_bytes (side k (s_in (metered (fresh t) l))) = u64 (over (stored_bytes k) l).
Proof. exact inbound. Qed.
Print Assumptions C119_inbound.
Example C119_inbound_example : Forall keeps [Write 1 true 3 90; Stream 1 false 3 90; Write 1 false 2 60] /\ over (stored true) [Write 1 true 3 90; Write 1 false 2 60] = 3.
Proof. split; [repeat constructor; lia | reflexivity]. Qed.

(** They are the records the logs have grown by. *)
Theorem C119_log : forall l s p, Forall keeps l -> p_leo (s_log (metered s l) p) = p_leo (s_log s p) + over (stored_on p) l.
Proof. exact log_from. Qed.
Print Assumptions C119_log.
Example C119_log_example : over (stored_on 1) [Write 1 true 3 90; Write 2 false 2 60; Write 1 false 1 30] = 4.
Proof. repeat split. Qed.

(** The order in which requests are served does not matter. *)
Theorem C119_order : forall t l l' k, Forall keeps l -> Permutation l l' -> side k (s_in (metered (fresh t) l)) = side k (s_in (metered (fresh t) l')).
Proof. exact any_order. Qed.
Print Assumptions C119_order.
Example C119_order_example : Permutation [Write 1 true 3 90; Write 2 true 1 30] [Write 2 true 1 30; Write 1 true 3 90].
Proof. constructor. Qed.

(** The outbound bytes are the bytes of the slices sent, and of keys and values of records sent through SmartModules. *)
Theorem C119_sent_bytes : forall t l k, c_bytes (side k (s_out (metered (fresh t) l))) = u64 (over (sent_bytes k) l).
Proof. exact out_bytes. Qed.
Print Assumptions C119_sent_bytes.
Example C119_sent_bytes_example : over (sent_bytes true) [Stream 1 true 2 70; Process true [] [(1, 4); (0, 5)]; Fetch 1 false 2 (Some 70)] = 80.
Proof. repeat split. Qed.

(** The outbound records are the records sent, if all go through SmartModules. *)
Theorem C119_sent_records : forall t l k, Forall through_modules l -> Forall honest l -> c_records (side k (s_out (metered (fresh t) l))) = u64 (over (sent k) l).
Proof. exact out_records. Qed.
Print Assumptions C119_sent_records.
Example C119_sent_records_example : Forall through_modules [Process true [] [(1, 4); (0, 5)]; Write 1 true 3 90] /\ over (sent true) [Process true [] [(1, 4); (0, 5)]] = 2.
Proof. split; [repeat constructor | reflexivity]. Qed.

(** For a slice that is sent as it is in the file, all committed records of the partition are counted. *)
Theorem C119_raw : forall s p k d len, len <> 0 -> good s ->
  c_records (side k (s_out (meter s (Stream p k d len)))) = u64 (c_records (side k (s_out s)) + (p_hw (s_log s p) - p_start (s_log s p))) /\
  meter s (Fetch p k d (Some len)) = meter s (Stream p k d len).
Proof. exact raw. Qed.
Print Assumptions C119_raw.
Example C119_raw_example : good (fresh used_log).
Proof. apply fresh_good. Qed.

(** So the records are counted right exactly if the slice has all of them, from the start of the log to the high watermark. *)
Theorem C119_raw_iff : forall s p k d len, good s -> len <> 0 -> 0 <= p_start (s_log s p) <= p_hw (s_log s p) -> p_hw (s_log s p) < 2 ^ 63 -> 0 <= d < 2 ^ 63 ->
  (c_records (side k (s_out (meter s (Stream p k d len)))) = u64 (c_records (side k (s_out s)) + d) <-> d = p_hw (s_log s p) - p_start (s_log s p)).
Proof. exact raw_iff. Qed.
Print Assumptions C119_raw_iff.
Example C119_raw_iff_example : good (fresh used_log) /\ p_hw (used_log 0) - p_start (used_log 0) = 10.
Proof. split; [apply fresh_good | reflexivity]. Qed.

(** Counters are 64 bit numbers at all times. *)
Theorem C119_good : forall t l, good (metered (fresh t) l).
Proof. exact good_from. Qed.
Print Assumptions C119_good.
Example C119_good_example : good (metered (fresh used_log) [Stream 0 true 3 90]).
Proof. apply good_from. Qed.

(** A write of which the transformation of the topic leaves nothing stores nothing, but counts as many records as are not committed yet. *)
Theorem C119_dropped : forall s p k b, good s -> let s' := meter s (Write p k 0 b) in
  (forall q, s_log s' q = s_log s q) /\ c_records (side k (s_in s')) = u64 (c_records (side k (s_in s)) + (p_leo (s_log s p) - p_hw (s_log s p))) /\
  c_bytes (side k (s_in s')) = c_bytes (side k (s_in s)).
Proof. exact dropped. Qed.
Print Assumptions C119_dropped.
Example C119_dropped_example : good (fresh used_log) /\ p_leo (used_log 0) - p_hw (used_log 0) = 2.
Proof. split; [apply fresh_good | reflexivity]. Qed.

(** Only writes of connectors change the inbound counters of connectors, and only those of others the others. *)
Theorem C119_apart : forall s e k, (match e with Write _ k' _ _ => k' <> k | _ => True end) -> side k (s_in (meter s e)) = side k (s_in s).
Proof. exact apart. Qed.
Print Assumptions C119_apart.
Example C119_apart_example : side true (s_in (meter (fresh logs) (Write 1 false 3 90))) = mkCount 0 0.
Proof. repeat split. Qed.

(** It is the same for reads and the outbound counters. *)
Theorem C119_apart_out : forall s e k, (match e with Fetch _ k' _ _ | Stream _ k' _ _ | Process k' _ _ => k' <> k | _ => True end) -> side k (s_out (meter s e)) = side k (s_out s).
Proof. exact apart_out. Qed.
Print Assumptions C119_apart_out.
Example C119_apart_out_example : side true (s_out (meter (fresh logs) (Stream 1 false 3 90))) = mkCount 0 0.
Proof. repeat split. Qed.

(** The bytes of a SmartModule are the input bytes of all its calls, in all streams and places of chains. *)
Theorem C119_module_bytes : forall t l x, d_bytes (shown (s_mod (metered (fresh t) l)) x) = u64 (total (map k_bytes (all_calls x l))).
Proof. exact mod_bytes. Qed.
Print Assumptions C119_module_bytes.
Example C119_module_bytes_example : total (map k_bytes (all_calls 1 [Process true [(1, [mkCall 5 false 9 0]); (2, [mkCall 7 false 9 0]); (1, [mkCall 6 true 9 0])] []])) = 11.
Proof. repeat split. Qed.

(** Its calls are counted. *)
Theorem C119_module_calls : forall t l x, d_calls (shown (s_mod (metered (fresh t) l)) x) = u64 (Z.of_nat (length (all_calls x l))).
Proof. exact mod_calls. Qed.
Print Assumptions C119_module_calls.
Example C119_module_calls_example : length (all_calls 1 [Process true [(1, [mkCall 5 false 9 0; mkCall 5 false 9 0])] []; Process false [(1, [mkCall 6 true 9 0])] []]) = 3%nat.
Proof. repeat split. Qed.

(** So are those that reported an error. *)
Theorem C119_module_errors : forall t l x, d_err (shown (s_mod (metered (fresh t) l)) x) = u64 (Z.of_nat (length (filter k_failed (all_calls x l)))).
Proof. exact mod_err. Qed.
Print Assumptions C119_module_errors.
Example C119_module_errors_example : length (filter k_failed (all_calls 1 [Process true [(1, [mkCall 5 false 9 0; mkCall 5 true 9 0])] []])) = 1%nat.
Proof. repeat split. Qed.

(** And the fuel they used. *)
Theorem C119_module_fuel : forall t l x, d_fuel (shown (s_mod (metered (fresh t) l)) x) = u64 (total (map k_fuel (all_calls x l))).
Proof. exact mod_fuel. Qed.
Print Assumptions C119_module_fuel.
Example C119_module_fuel_example : total (map k_fuel (all_calls 1 [Process true [(1, [mkCall 5 false 9 0; mkCall 5 true 8 0])] []])) = 17.
Proof. repeat split. Qed.

(** The time is the sum of the times of calls, each rounded up to a millisecond, and a millisecond at least for each instance and batch. *)
Theorem C119_module_ms : forall t l x, d_ms (shown (s_mod (metered (fresh t) l)) x) =
  u64 (total (map (fun e => match e with Process _ c _ => total (map (fun i => if x =? fst i then instance_ms (snd i) else 0) c) | _ => 0 end) l)).
Proof. exact mod_ms. Qed.
Print Assumptions C119_module_ms.
Example C119_module_ms_example : instance_ms [] = 1.
Proof. reflexivity. Qed.

(** Exactly the modules of chains that batches were sent through are listed. *)
Theorem C119_listed : forall t l x, s_mod (metered (fresh t) l) x <> None <-> Exists (named x) l.
Proof. exact listed. Qed.
Print Assumptions C119_listed.
Example C119_listed_example : Exists (named 1) [Process true [(2, []); (1, [])] []].
Proof. constructor; cbn; auto. Qed.

(** Records out of modules are never counted. *)
Theorem C119_module_out : forall t l x, d_out (shown (s_mod (metered (fresh t) l)) x) = 0.
Proof. exact mod_out. Qed.
Print Assumptions C119_module_out.
Example C119_module_out_example : ~ (exists n, d_out (shown (s_mod (metered (fresh logs) [Process true [(1, [mkCall 5 false 9 0])] [(1, 1)]])) 1) = n /\ 0 < n).
Proof. intros (n & H & P). rewrite mod_out in H. subst. discriminate. Qed.

(** A slice of some of the records is counted as all of them. *)
Theorem C119_raw_refuted : ~ (forall s p k d len, good s -> len <> 0 -> 0 <= d <= p_hw (s_log s p) - p_start (s_log s p) ->
  c_records (side k (s_out (meter s (Stream p k d len)))) = u64 (c_records (side k (s_out s)) + d)).
Proof. exact raw_refuted. Qed.
Print Assumptions C119_raw_refuted.

(** A log sent in two halves is counted twice. *)
Theorem C119_twice_refuted : ~ (forall t p k d len, p_start (t p) = 0 -> p_hw (t p) = 2 * d -> 0 < d < 100 -> len <> 0 ->
  c_records (side k (s_out (metered (fresh t) [Stream p k d len; Stream p k d len]))) = 2 * d).
Proof. exact twice_refuted. Qed.
Print Assumptions C119_twice_refuted.

(** A write that stores nothing may be counted. *)
Theorem C119_dropped_refuted : ~ (forall s p k b, good s -> c_records (side k (s_in (meter s (Write p k 0 b)))) = c_records (side k (s_in s))).
Proof. exact dropped_refuted. Qed.
Print Assumptions C119_dropped_refuted.

(** The counter of records out is not what comes out of the chain. *)
Theorem C119_out_refuted : ~ (forall t k c w x, In x (map fst c) -> d_out (shown (s_mod (metered (fresh t) [Process k c w])) x) = Z.of_nat (length w)).
Proof. exact out_refuted. Qed.
Print Assumptions C119_out_refuted.

(** Calls of a batch on which the engine fails are not counted. *)
Theorem C119_broken_refuted : ~ (forall t c x, d_calls (shown (s_mod (metered (fresh t) [Break c])) x) = u64 (Z.of_nat (length (calls_of x c)))).
Proof. exact broken_refuted. Qed.
Print Assumptions C119_broken_refuted.

(** A module that was not called is given time. *)
Theorem C119_idle_refuted : ~ (forall t k x, d_ms (shown (s_mod (metered (fresh t) [Process k [(x, [])] []])) x) = 0).
Proof. exact idle_refuted. Qed.
Print Assumptions C119_idle_refuted.
