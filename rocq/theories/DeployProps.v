(** Connectors on this machine. *)
From Coq Require Import ZArith List Bool.
Import ListNotations.
From Verif Require Import Base NameModel DeployModel DeploySpec DeployProofs.
Open Scope Z_scope.

(** No name is listed twice. *)
Theorem C120_distinct : forall l, NoDup (names (deployed new_machine l)).
Proof. exact distinct. Qed.
Print Assumptions C120_distinct.
Example C120_distinct_example : names (deployed new_machine (two ++ [Start a_name 12 None])) = [a_name; b_name].
Proof. reflexivity. Qed.

(** A connector can be started exactly if its name is not listed. *)
Theorem C120_start_iff : forall m n p t, ans m (Start n p t) = Done <-> ~ listed n m.
Proof. exact start_iff. Qed.
Print Assumptions C120_start_iff.
Example C120_start_iff_example : ~ listed b_name (deployed new_machine [Start a_name 10 None]).
Proof. intros [H|[]]; discriminate. Qed.

(** It then runs and is listed last as running, with an empty log; other processes are as before. *)
Theorem C120_started : forall m n p t, ~ listed n m -> let m' := after m (Start n p t) in
  list_all m' = map (fun x => if Z.eq_dec (e_pid x) p then (e_name x, true) else (e_name x, match x_proc m (e_pid x) with Some _ => true | None => false end)) (load m) ++ [(n, true)] /\
  x_proc m' p = Some (Conn (x_starts m) n) /\ (forall q, q <> p -> x_proc m' q = x_proc m q) /\ show_log n m' = Some [].
Proof. exact started. Qed.
Print Assumptions C120_started.
Example C120_started_example : list_all (deployed new_machine two) = [(a_name, true); (b_name, true)].
Proof. reflexivity. Qed.

(** Entries, directories and other logs are kept by a start. *)
Theorem C120_start_leaves : forall m n p t, let m' := after m (Start n p t) in
  (~ listed n m -> load m' = load m ++ [mkEntry p n (log_name n) t]) /\
  (forall d, x_tmp m' d = true <-> t = Some d \/ x_tmp m d = true) /\
  (forall f, f <> log_name n -> x_log m' f = x_log m f) /\ x_starts m' = x_starts m + 1.
Proof. exact start_leaves. Qed.
Print Assumptions C120_start_leaves.
Example C120_start_leaves_example : x_tmp (deployed new_machine two) 1 = true /\ x_log (after (deployed new_machine two) (Start b_name 12 None)) (log_name a_name) = [7].
Proof. repeat split. Qed.

(** A shutdown ends the process of the entry and no other, removes its directory, and takes this entry out of the index and no other. *)
Theorem C120_shut : forall m n, NoDup (names m) -> ans m (Shutdown n) = Done -> let m' := after m (Shutdown n) in
  exists e, In e (load m) /\ e_name e = n /\ x_proc m' (e_pid e) = None /\ (forall q, q <> e_pid e -> x_proc m' q = x_proc m q) /\
  load m' = filter (fun x => negb (same (e_name x) n)) (load m) /\ (forall d, e_tmp e = Some d -> x_tmp m' d = false).
Proof. exact shut. Qed.
Print Assumptions C120_shut.
Example C120_shut_example : NoDup (names (deployed new_machine two)) /\ ans (deployed new_machine two) (Shutdown b_name) = Done.
Proof. split; [apply distinct | reflexivity]. Qed.

(** Names are compared byte by byte. *)
Theorem C120_same : forall a b, same a b = true <-> a = b.
Proof. exact same_eq. Qed.
Print Assumptions C120_same.
Example C120_same_example : same a_name b_name = false.
Proof. reflexivity. Qed.

(** Logs, and the directories of other connectors, are kept. *)
Theorem C120_shutdown_leaves : forall m n, let m' := after m (Shutdown n) in
  (forall f, x_log m' f = x_log m f) /\ (forall d, x_tmp m d = true -> (forall e, In e (load m) -> e_name e = n -> e_tmp e <> Some d) -> x_tmp m' d = true).
Proof. exact shutdown_leaves. Qed.
Print Assumptions C120_shutdown_leaves.
Example C120_shutdown_leaves_example : x_tmp (after (deployed new_machine two) (Shutdown a_name)) 1 = true.
Proof. reflexivity. Qed.

(** After it the name is not listed and can be used again. *)
Theorem C120_gone : forall m n, NoDup (names m) -> ans m (Shutdown n) = Done -> ~ listed n (after m (Shutdown n)) /\ (forall k, k <> n -> listed k m -> listed k (after m (Shutdown n))) /\
  forall p t, ans (after m (Shutdown n)) (Start n p t) = Done.
Proof. exact gone. Qed.
Print Assumptions C120_gone.
Example C120_gone_example : ans (after (deployed new_machine two) (Shutdown a_name)) (Start a_name 12 None) = Done.
Proof. reflexivity. Qed.

(** A shutdown says that it finds nothing exactly if the name is not listed. *)
Theorem C120_not_found : forall m n, ans m (Shutdown n) = NotFound <-> ~ listed n m.
Proof. exact shutdown_none. Qed.
Print Assumptions C120_not_found.
Example C120_not_found_example : ans (deployed new_machine two) (Shutdown [99]) = NotFound.
Proof. reflexivity. Qed.

(** It then changes nothing. *)
Theorem C120_not_found_same : forall m n, ~ listed n m -> load (after m (Shutdown n)) = load m /\ (forall p, x_proc (after m (Shutdown n)) p = x_proc m p).
Proof. exact shutdown_none_same. Qed.
Print Assumptions C120_not_found_same.
Example C120_not_found_same_example : ~ listed [99] (deployed new_machine two).
Proof. cbn. intuition discriminate. Qed.

(** A listed connector can be shut down exactly if the directory of its package, if it came as a package, is still there. *)
Theorem C120_shut_iff : forall l e, let m := deployed new_machine l in In e (load m) -> (ans m (Shutdown (e_name e)) = Done <-> forall d, e_tmp e = Some d -> x_tmp m d = true).
Proof. exact shut_iff. Qed.
Print Assumptions C120_shut_iff.
Example C120_shut_iff_example : In (mkEntry 11 b_name (log_name b_name) (Some 1)) (load (deployed new_machine two)).
Proof. cbn. auto. Qed.

(** If it is not, the shutdown fails though the process is ended; the entry stays, the next shutdown fails too, and the name cannot be used again. *)
Theorem C120_stuck : forall l e d, let m := deployed new_machine l in In e (load m) -> e_tmp e = Some d -> x_tmp m d = false -> let m' := after m (Shutdown (e_name e)) in
  ans m (Shutdown (e_name e)) = Failed /\ load m' = load m /\ x_proc m' (e_pid e) = None /\ ans m' (Shutdown (e_name e)) = Failed /\ forall p t, ans m' (Start (e_name e) p t) = Failed.
Proof. exact stuck_at. Qed.
Print Assumptions C120_stuck.
Example C120_stuck_example : In (mkEntry 11 b_name (log_name b_name) (Some 1)) (load (deployed new_machine (two ++ [Clean 1]))) /\ x_tmp (deployed new_machine (two ++ [Clean 1])) 1 = false.
Proof. split; [cbn; auto | reflexivity]. Qed.

(** A connector is listed as running exactly if there is a process of the id in its entry. *)
Theorem C120_status : forall m n, In (n, true) (list_all m) <-> exists e, In e (load m) /\ e_name e = n /\ x_proc m (e_pid e) <> None.
Proof. exact status. Qed.
Print Assumptions C120_status.
Example C120_status_example : list_all (deployed new_machine (two ++ [Exit 10])) = [(a_name, false); (b_name, true)].
Proof. reflexivity. Qed.

(** The list shows all entries. *)
Theorem C120_list : forall m, map fst (list_all m) = names m.
Proof. exact list_names. Qed.
Print Assumptions C120_list.
Example C120_list_example : map fst (list_all (deployed new_machine two)) = [a_name; b_name].
Proof. reflexivity. Qed.

(** If ids of processes are not used again, the index points to connectors of the names it says. *)
Theorem C120_truth : forall l, new_pids new_machine l -> true_index (deployed new_machine l).
Proof. exact truth. Qed.
Print Assumptions C120_truth.
Example C120_truth_example : new_pids new_machine two.
Proof. exact two_new. Qed.

(** A shutdown then ends only a connector of the name. *)
Theorem C120_kills_own : forall l n q w, new_pids new_machine l -> let m := deployed new_machine l in
  x_proc m q = Some w -> x_proc (after m (Shutdown n)) q = None -> exists r, w = Conn r n.
Proof. exact kills_own. Qed.
Print Assumptions C120_kills_own.
Example C120_kills_own_example : x_proc (deployed new_machine two) 10 = Some (Conn 0 a_name) /\ x_proc (after (deployed new_machine two) (Shutdown a_name)) 10 = None.
Proof. repeat split. Qed.

(** And what is listed as running is running. *)
Theorem C120_runs_own : forall l n, new_pids new_machine l -> In (n, true) (list_all (deployed new_machine l)) -> exists p r, x_proc (deployed new_machine l) p = Some (Conn r n).
Proof. exact runs_own. Qed.
Print Assumptions C120_runs_own.
Example C120_runs_own_example : In (b_name, true) (list_all (deployed new_machine two)).
Proof. cbn. auto. Qed.

(** A name leaves the list only by its shutdown, if the file of the index is not lost. *)
Theorem C120_stays : forall m c n, ordinary c -> c <> Shutdown n -> listed n m -> listed n (after m c).
Proof. exact stays. Qed.
Print Assumptions C120_stays.
Example C120_stays_example : ordinary (Exit 10) /\ listed a_name (deployed new_machine two).
Proof. split; cbn; auto. Qed.

(** What processes do does not change the index. *)
Theorem C120_world : forall m c, (match c with Exit _ | Foreign _ | Print _ _ | Clean _ => True | _ => False end) -> load (after m c) = load m /\
  (forall q, (match c with Exit p | Foreign p => q <> p | _ => True end) -> x_proc (after m c) q = x_proc m q).
Proof. exact world. Qed.
Print Assumptions C120_world.
Example C120_world_example : load (after (deployed new_machine two) (Exit 10)) = load (deployed new_machine two).
Proof. reflexivity. Qed.

(** A connector that ended is listed as stopped. *)
Theorem C120_exits : forall m p n, In (n, true) (list_all m) -> (forall e, In e (load m) -> e_name e = n -> e_pid e = p) -> In (n, false) (list_all (after m (Exit p))).
Proof. exact exits. Qed.
Print Assumptions C120_exits.
Example C120_exits_example : In (a_name, false) (list_all (deployed new_machine (two ++ [Exit 10]))).
Proof. cbn. auto. Qed.

(** The log shown is that of the file of the name. *)
Theorem C120_shows : forall l n, listed n (deployed new_machine l) -> show_log n (deployed new_machine l) = Some (x_log (deployed new_machine l) (log_name n)).
Proof. exact shows. Qed.
Print Assumptions C120_shows.
Example C120_shows_example : show_log a_name (deployed new_machine two) = Some [7].
Proof. reflexivity. Qed.

(** What a connector prints is in its log, and not in that of others, for names without dots. *)
Theorem C120_log_of_own : forall m p x r n, x_proc m p = Some (Conn r n) -> x_log (after m (Print p x)) (log_name n) = x_log m (log_name n) ++ [x] /\
  forall k, no_dot n -> no_dot k -> k <> n -> x_log (after m (Print p x)) (log_name k) = x_log m (log_name k).
Proof. exact log_of_own. Qed.
Print Assumptions C120_log_of_own.
Example C120_log_of_own_example : no_dot a_name /\ no_dot b_name /\ x_proc (deployed new_machine two) 10 = Some (Conn 0 a_name).
Proof. repeat split; intros [H|[]]; discriminate. Qed.

(** The file of a name without dots is the name with .log after it. *)
Theorem C120_log_plain : forall n, no_dot n -> log_name n = n ++ dot_log.
Proof. exact log_plain. Qed.
Print Assumptions C120_log_plain.
Example C120_log_plain_example : no_dot a_name.
Proof. intros [H|[]]; discriminate. Qed.

(** What follows the last dot is replaced. *)
Theorem C120_log_shape : forall a b, a <> [] -> ~ In 46 b -> log_name (a ++ [46] ++ b) = a ++ dot_log.
Proof. exact log_shape. Qed.
Print Assumptions C120_log_shape.
Example C120_log_shape_example : log_name ([97] ++ [46] ++ [98]) = [97; 46; 108; 111; 103].
Proof. reflexivity. Qed.

(** But not if the only dot is the first character. *)
Theorem C120_log_hidden : forall b, ~ In 46 b -> log_name (46 :: b) = 46 :: b ++ dot_log.
Proof. exact log_hidden. Qed.
Print Assumptions C120_log_hidden.
Example C120_log_hidden_example : ~ In 46 [97].
Proof. intros [H|[]]; discriminate. Qed.

(** Names without dots have different files. *)
Theorem C120_log_apart : forall n k, no_dot n -> no_dot k -> log_name n = log_name k -> n = k.
Proof. exact log_apart. Qed.
Print Assumptions C120_log_apart.
Example C120_log_apart_example : no_dot b_name.
Proof. intros [H|[]]; discriminate. Qed.

(** A start with a name that is listed fails, but the process runs, without an entry, and the log of the name is emptied. *)
Theorem C120_taken : forall m n p t, listed n m -> let m' := after m (Start n p t) in
  ans m (Start n p t) = Failed /\ load m' = load m /\ x_proc m' p = Some (Conn (x_starts m) n) /\ x_log m' (log_name n) = [].
Proof. exact taken. Qed.
Print Assumptions C120_taken.
Example C120_taken_example : listed a_name (deployed new_machine two).
Proof. cbn. auto. Qed.

(** A start that fails may leave a process that no shutdown ends. *)
Theorem C120_orphan_refuted : ~ (forall l n p t, new_pids new_machine (l ++ [Start n p t]) -> ans (deployed new_machine l) (Start n p t) = Failed ->
  x_proc (after (deployed new_machine l) (Start n p t)) p = None \/ In p (pids (after (deployed new_machine l) (Start n p t)))).
Proof. exact orphan_refuted. Qed.
Print Assumptions C120_orphan_refuted.

(** A start that fails may lose the log of the connector that runs. *)
Theorem C120_orphan_log_refuted : ~ (forall l n p t, ans (deployed new_machine l) (Start n p t) = Failed -> show_log n (after (deployed new_machine l) (Start n p t)) = show_log n (deployed new_machine l)).
Proof. exact orphan_log_refuted. Qed.
Print Assumptions C120_orphan_log_refuted.

(** If an id is used again, a shutdown ends a process that is no connector. *)
Theorem C120_pid_refuted : ~ (forall l n q, x_proc (deployed new_machine l) q = Some Other -> x_proc (after (deployed new_machine l) (Shutdown n)) q = Some Other).
Proof. exact pid_refuted. Qed.
Print Assumptions C120_pid_refuted.

(** Not every listed connector can be shut down. *)
Theorem C120_tmp_refuted : ~ (forall l n, listed n (deployed new_machine l) -> ans (deployed new_machine l) (Shutdown n) = Done).
Proof. exact tmp_refuted. Qed.
Print Assumptions C120_tmp_refuted.

(** If the file of the index is lost, a running connector is not known and can be started a second time. *)
Theorem C120_spoil_refuted : ~ (forall l n p r, x_proc (deployed new_machine l) p = Some (Conn r n) -> ans (deployed new_machine l) (Start n (p + 1) None) = Failed).
Proof. exact spoil_refuted. Qed.
Print Assumptions C120_spoil_refuted.

(** Different names may have the same file. *)
Theorem C120_log_refuted : ~ (forall n k, log_name n = log_name k -> n = k).
Proof. exact log_refuted. Qed.
Print Assumptions C120_log_refuted.
