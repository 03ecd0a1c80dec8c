(** C85: creating and listing objects follow the policy.  C86: what is done
    without asking the policy, and who a client is taken for.  C87: what the
    requests do. *)
From Coq Require Import String.
Open Scope string_scope. Open Scope list_scope. Open Scope Z_scope.
From Verif Require Import Base NameModel PackageModel AuthModel AuthSpec AuthProofs AuthClaims.

(** ** C85 *)

(** Without permission nothing is created: the answer is a refusal and nothing
    changes; of a table format the client learns whether it is there. *)
Theorem C85_create : forall ro c q s k, proper_ctx c -> creates q = Some k -> k <> TableFormat -> ~ allowed c MayCreate k ->
  handle ro c q s = (Denied, s).
Proof. exact create_denied. Qed.
Print Assumptions C85_create.
Example C85_create_ex : proper_ctx nobody /\ forall k, ~ allowed nobody MayCreate k.
Proof. exact (conj nobody_proper (nobody_allowed MayCreate)). Qed.
Theorem C85_create_table : forall ro c n v s, proper_ctx c -> ~ allowed c MayCreate TableFormat ->
  snd (handle ro c (CreateTable n v) s) = s /\
  (fst (handle ro c (CreateTable n v) s) = Denied <-> ~ named TableFormat s n) /\
  (fst (handle ro c (CreateTable n v) s) = AlreadyExists <-> named TableFormat s n).
Proof. exact table_denied. Qed.
Print Assumptions C85_create_table.
Example C85_create_table_ex : proper_ctx writer /\ ~ allowed writer MayCreate TableFormat.
Proof. exact (conj a_policy_proper (proj2 (proj2 (proj2 writer_allowed)))). Qed.

(** Only this is refused for lack of permission, *)
Theorem C85_denied : forall ro c q s, proper_ctx c -> fst (handle ro c q s) = Denied ->
  exists k, creates q = Some k /\ ~ allowed c MayCreate k.
Proof. exact denied_exactly. Qed.
Print Assumptions C85_denied.
(** and with the permission of one of its roles a client creates what it asks for,
    and nothing else (SmartModules: C84). *)
Theorem C85_created : forall ro c q s k n, proper_ctx c -> creates q = Some k -> allowed c MayCreate k -> fresh q s n ->
  fst (handle ro c q s) = Accepted /\ (forall x, named k (snd (handle ro c q s)) x <-> named k s x \/ x = n) /\
  forall k' x, k' <> k -> (k = CustomSpu -> k' <> Spu) -> (named k' (snd (handle ro c q s)) x <-> named k' s x).
Proof. exact create_made. Qed.
Print Assumptions C85_created.
Example C85_created_ex : proper_ctx two_roles /\ allowed two_roles MayCreate Topic /\
  fresh (CreateTopic (lit "t") (mkTopic false (Computed 1)) false (fun _ => true)) a_state (lit "t").
Proof. exact (conj a_policy_proper (conj (proj1 two_roles_allowed) a_topic_fresh)). Qed.

(** Without permission to read, a list is empty; *)
Theorem C85_list : forall ro c k f sys s, proper_ctx c -> listable k -> ~ allowed c MayRead k ->
  handle ro c (List k f sys) s = (Listing [], s).
Proof. exact list_denied. Qed.
Print Assumptions C85_list.
Example C85_list_ex : proper_ctx writer /\ listable SmartModule /\ ~ allowed writer MayRead SmartModule.
Proof. exact writer_modules. Qed.
(** with it, it has the names that contain one of the texts asked for. *)
Theorem C85_topics : forall ro c f sys s, proper_ctx c -> allowed c MayRead Topic ->
  shows (fst (handle ro c (List Topic f sys) s)) (fun n => (exists t, In (n, t) (topics s) /\ t_system t = sys) /\ wanted f n).
Proof. exact list_topics. Qed.
Print Assumptions C85_topics.
Example C85_topics_ex : proper_ctx writer /\ allowed writer MayRead Topic /\
  fst (handle false writer (List Topic [lit "rde"] false) a_state) = Listing [lit "orders"].
Proof. exact (conj a_policy_proper (conj (proj1 (proj2 writer_allowed)) a_topic_list)). Qed.
Theorem C85_others : forall ro c k f sys s, proper_ctx c -> In k [Spu; CustomSpu; SpuGroup; TableFormat] -> allowed c MayRead k ->
  shows (fst (handle ro c (List k f sys) s)) (fun n => named k s n /\ wanted f n).
Proof. exact list_others. Qed.
Print Assumptions C85_others.
Theorem C85_modules : forall ro c f sys s l, proper_ctx c -> allowed c MayRead SmartModule -> list_modules f (modules s) = Some l ->
  shows (fst (handle ro c (List SmartModule f sys) s)) (fun n => exists m, In (n, m) l).
Proof. exact list_module_names. Qed.
Print Assumptions C85_modules.
Example C85_modules_ex : proper_ctx two_roles /\ allowed two_roles MayRead SmartModule /\
  list_modules [lit "filter"] (modules a_state) = Some [(lit "filter", mkM None 7)].
Proof. exact (conj a_policy_proper (conj (proj2 two_roles_allowed) a_module_list)). Qed.
(** Lists of partitions are not limited to the names asked for. *)
Theorem C85_partitions : forall ro c f sys s, proper_ctx c -> allowed c MayRead Partition ->
  shows (fst (handle ro c (List Partition f sys) s)) (fun n => In (n, sys) (partitions s)).
Proof. exact list_partitions. Qed.
Print Assumptions C85_partitions.
Theorem C85_partition_filter_refuted : exists c f s n, proper_ctx c /\ allowed c MayRead Partition /\ ~ wanted f n /\
  exists l, fst (handle false c (List Partition f false) s) = Listing l /\ In n l.
Proof. exact partition_filter. Qed.
Print Assumptions C85_partition_filter_refuted.

(** A client whose requests are all of this kind learns nothing and changes nothing. *)
Theorem C85_session : forall ro c qs, proper_ctx c -> Forall (without_permission c) qs ->
  exists l, forall s, session ro c qs s = (l, s).
Proof. exact session_blind. Qed.
Print Assumptions C85_session.
Example C85_session_ex : Forall (without_permission nobody) a_session /\
  session false nobody a_session a_state = ([Denied; Listing []; Denied; Listing []], a_state).
Proof. exact a_session_without. Qed.

(** Permissions for single objects have no effect: *)
Theorem C85_single : forall ro p roles q s, handle ro (Basic p roles) q s = handle ro (Basic (general p) roles) q s.
Proof. exact handle_general. Qed.
Print Assumptions C85_single.
Theorem C85_single_refuted : exists p roles name s, proper p /\ grants_on p roles MayRead Topic name /\ named Topic s name /\
  forall ro f sys, handle ro (Basic p roles) (List Topic f sys) s = (Listing [], s).
Proof. exact guest_sees_nothing. Qed.
Print Assumptions C85_single_refuted.
(** if they were asked for, a part of the name would do. *)
Theorem C85_part_refuted : exists p roles a k name, proper p /\ evaluate p a k (Some name) roles = true /\ ~ grants_on p roles a k name.
Proof. exact part_of_name. Qed.
Print Assumptions C85_part_refuted.

(** The default policy lets the role Root do everything with six kinds, *)
Theorem C85_default : forall roles a k, grants default_policy roles a k <->
  In (lit "Root") roles /\ In k [Spu; CustomSpu; SpuGroup; Topic; Partition; TableFormat].
Proof. exact default_grants. Qed.
Print Assumptions C85_default.
(** not with SmartModules. *)
Theorem C85_default_refuted : exists q, creates q = Some SmartModule /\
  forall ro s, handle ro (Basic default_policy [lit "Root"]) q s = (Denied, s).
Proof. exact root_no_modules. Qed.
Print Assumptions C85_default_refuted.

(** A permission is read from the file as it was written, if the name has no ':'. *)
Theorem C85_file : forall x, parse_perm (print_perm x) = Some x <-> (forall i, only x = Some i -> ~ In 58 i).
Proof. exact perm_file. Qed.
Print Assumptions C85_file.
Theorem C85_file_refuted : exists x y, parse_perm (print_perm x) = Some y /\ x <> y.
Proof. exact file_cut. Qed.
Print Assumptions C85_file_refuted.
Theorem C85_file_bad : forall a t, ~ In 58 a -> (forall x, a <> action_text x) ->
  parse_perm a = None /\ parse_perm (a ++ 58 :: t) = None.
Proof. exact perm_bad. Qed.
Print Assumptions C85_file_bad.
Example C85_file_bad_ex : ~ In 58 (lit "Write") /\ forall x, lit "Write" <> action_text x.
Proof. exact file_word. Qed.

(** ** C86 *)

(** Deleting, changing and watching, and all requests about mirrors, do not
    depend on who asks: *)
Theorem C86_unchecked : forall ro c c' q s, creates q = None -> lists q = None -> handle ro c q s = handle ro c' q s.
Proof. exact unchecked. Qed.
Print Assumptions C86_unchecked.
(** every client deletes every topic, those of the system too, *)
Theorem C86_delete_any : forall ro c s n t, In (n, t) (topics s) -> NoDup (map fst (topics s)) -> t_replicas t <> FromHome ->
  fst (handle ro c (DeleteTopic n true) s) = Accepted /\ topic_gone n s (snd (handle ro c (DeleteTopic n true) s)).
Proof. exact delete_any. Qed.
Print Assumptions C86_delete_any.
Example C86_delete_any_ex : In (lit "__offsets", mkTopic true (Computed 1)) (topics a_state) /\
  NoDup (map fst (topics a_state)).
Proof. split; [cbn; auto|]. cbn. repeat constructor; cbn; intuition discriminate. Qed.
(** and sees the names of all objects of six kinds. *)
Theorem C86_watch : forall ro c k s, In k [Topic; Spu; SpuGroup; Partition; SmartModule; TableFormat] ->
  watches (fst (handle ro c (Watch k) s)) (named k s).
Proof. exact watch_all. Qed.
Print Assumptions C86_watch.
(** So clients without any permission delete, *)
Theorem C86_delete_refuted : exists c s n, proper_ctx c /\ (forall a k, ~ allowed c a k) /\ named Topic s n /\
  fst (handle false c (DeleteTopic n false) s) = Accepted /\ topic_gone n s (snd (handle false c (DeleteTopic n false) s)).
Proof. exact deleted_by_nobody. Qed.
Print Assumptions C86_delete_refuted.
(** change, *)
Theorem C86_update_refuted : exists c s n, proper_ctx c /\ (forall a k, ~ allowed c a k) /\
  In (n, mkTopic false (Computed 2)) (topics s) /\
  exists s', handle false c (AddPartitions n 3) s = (Accepted, s') /\ In (n, mkTopic false (Computed 5)) (topics s').
Proof. exact changed_by_nobody. Qed.
Print Assumptions C86_update_refuted.
(** set up, remove and see mirrors, *)
Theorem C86_mirror_refuted : exists c s n m, proper_ctx c /\ (forall a k, ~ allowed c a k) /\ named Mirror s n /\ ~ named Mirror s m /\
  named Mirror (snd (handle false c (CreateMirror m MHome) s)) m /\ ~ named Mirror (snd (handle false c (DeleteMirror n) s)) n /\
  shows (fst (handle false c (List Mirror [] false) s)) (named Mirror s).
Proof. exact mirrors_by_nobody. Qed.
Print Assumptions C86_mirror_refuted.
(** and find out about table formats. *)
Theorem C86_table_refuted : exists c s s' q, proper_ctx c /\ (forall a k, ~ allowed c a k) /\ creates q = Some TableFormat /\
  s' = set_tables s [] /\ fst (handle false c q s) <> fst (handle false c q s').
Proof. exact table_exists. Qed.
Print Assumptions C86_table_refuted.

(** In read-only mode only SPUs are created and mirrors are not changed, *)
Theorem C86_read_only : forall first c q s k, connect None true first = Some c -> creates q = Some k -> k <> CustomSpu ->
  snd (handle true c q s) = s.
Proof. exact read_only_no_create. Qed.
Print Assumptions C86_read_only.
Theorem C86_read_only_mirrors : forall c n m s, snd (handle true c (CreateMirror n m) s) = s /\ snd (handle true c (DeleteMirror n) s) = s.
Proof. exact read_only_mirrors. Qed.
Print Assumptions C86_read_only_mirrors.
(** but topics are deleted. *)
Theorem C86_read_only_refuted : exists c s n, connect None true None = Some c /\ ~ allowed c MayDelete Topic /\ named Topic s n /\
  fst (handle true c (DeleteTopic n false) s) = Accepted /\ ~ named Topic (snd (handle true c (DeleteTopic n false) s)) n.
Proof. exact deleted_read_only. Qed.
Print Assumptions C86_read_only_refuted.

(** Through the proxy a client has the roles bound to the name in its
    certificate, none if there are none; without a name it is not connected. *)
Theorem C86_proxy : forall b p ro n c, NoDup (map fst b) -> connect (Some p) ro (proxied b (Some n)) = Some c -> proper p ->
  forall a k, allowed c a k <-> exists l, In (n, l) b /\ grants p l a k.
Proof. exact proxy_scopes. Qed.
Print Assumptions C86_proxy.
Example C86_proxy_ex : proper a_policy /\
  connect (Some a_policy) false (proxied [(lit "alice", [lit "writer"])] (Some (lit "alice"))) = Some writer.
Proof. exact (conj a_policy_proper a_proxied). Qed.
Theorem C86_proxy_closed : forall b p ro, connect (Some p) ro (proxied b None) = None.
Proof. exact proxy_closed. Qed.
Print Assumptions C86_proxy_closed.
(** Without the proxy it has the roles it says it has. *)
Theorem C86_claim_refuted : forall b n, (forall l, In (n, l) b -> l = []) -> NoDup (map fst b) -> exists p ro c c', proper p /\
  connect (Some p) ro (proxied b (Some n)) = Some c /\ (forall a k, ~ allowed c a k) /\
  connect (Some p) ro (Some [lit "Root"]) = Some c' /\ allowed c' MayCreate Topic.
Proof. exact claimed. Qed.
Print Assumptions C86_claim_refuted.
Example C86_claim_refuted_ex : (forall l, In (lit "mallory", l) [(lit "alice", [lit "writer"])] -> l = []) /\
  NoDup (map fst [(lit "alice", [lit "writer"])]).
Proof. split; [intros l [H|[]]; discriminate H|cbn; constructor; [tauto|constructor]]. Qed.
(** Without a policy, everything is allowed to everyone. *)
Theorem C86_no_policy : forall first c a k, connect None false first = Some c -> allowed c a k.
Proof. exact no_policy. Qed.
Print Assumptions C86_no_policy.

(** ** C87: what the requests do *)

(** Names, and ids of SPUs, stay unique. *)
Theorem C87_unique : forall ro c qs s, sound_stores s -> sound_stores (snd (session ro c qs s)).
Proof. exact session_sound. Qed.
Print Assumptions C87_unique.
Example C87_unique_ex : sound_stores a_state.
Proof. exact a_state_sound. Qed.
(** What is there is not created again. *)
Theorem C87_taken : forall ro c q s k, proper_ctx c -> sound_stores s -> creates q = Some k -> allowed c MayCreate k -> taken q s ->
  handle ro c q s = (AlreadyExists, s).
Proof. exact create_taken. Qed.
Print Assumptions C87_taken.
Example C87_taken_ex : sound_stores a_state /\ allowed Root MayCreate CustomSpu /\ taken (CreateSpu (lit "new") 1 false) a_state.
Proof. exact (conj a_state_sound (conj I an_id_taken)). Qed.
Theorem C87_mirror : forall c n m s, sound_stores s ->
  (In (n, MRemote) (mirrors s) -> handle false c (CreateMirror n m) s = (AlreadyExists, s)) /\
  (~ In (n, MRemote) (mirrors s) -> fst (handle false c (CreateMirror n m) s) = Accepted /\
     forall x y, In (x, y) (mirrors (snd (handle false c (CreateMirror n m) s))) <-> (x = n /\ y = m) \/ (x <> n /\ In (x, y) (mirrors s))).
Proof. exact mirror_made. Qed.
Print Assumptions C87_mirror.
(** Deleting is accepted exactly for what can be deleted; then this object is
    gone and no other, otherwise nothing changes. *)
Theorem C87_deleted : forall ro c q s k n, sound_stores s -> target q s k n ->
  (fst (handle ro c q s) = Accepted <-> deletable ro q s n) /\
  (fst (handle ro c q s) <> Accepted -> snd (handle ro c q s) = s) /\
  (fst (handle ro c q s) = Accepted -> only_gone k n s (snd (handle ro c q s))).
Proof. exact deleted. Qed.
Print Assumptions C87_deleted.
Example C87_deleted_ex : sound_stores a_state /\ target (DeleteSpuId 2) a_state Spu (lit "custom-2") /\
  deletable false (DeleteSpuId 2) a_state (lit "custom-2") /\ target (DeleteSpu (lit "spu-1")) a_state Spu (lit "spu-1") /\
  ~ deletable false (DeleteSpu (lit "spu-1")) a_state (lit "spu-1").
Proof. exact (conj a_state_sound some_spus). Qed.
(** Partitions are added to topics with a computed assignment that are not of
    the system; the count is a 32 bit number. *)
Theorem C87_partitions : forall ro c n k s, sound_stores s ->
  (forall m, In (n, mkTopic false (Computed m)) (topics s) -> fst (handle ro c (AddPartitions n k) s) = Accepted /\
     topic_now n (Computed ((m + k) mod 2 ^ 32)) s (snd (handle ro c (AddPartitions n k) s))) /\
  ((forall m, ~ In (n, mkTopic false (Computed m)) (topics s)) ->
     fst (handle ro c (AddPartitions n k) s) <> Accepted /\ snd (handle ro c (AddPartitions n k) s) = s).
Proof. exact partitions_added. Qed.
Print Assumptions C87_partitions.
(** So the count can be zero after adding partitions. *)
Theorem C87_partitions_refuted : exists c n m k s, sound_stores s /\ 0 < m < 2 ^ 32 /\ 0 < k < 2 ^ 32 /\
  In (n, mkTopic false (Computed m)) (topics s) /\
  fst (handle false c (AddPartitions n k) s) = Accepted /\
  In (n, mkTopic false (Computed 0)) (topics (snd (handle false c (AddPartitions n k) s))).
Proof. exact partitions_lost. Qed.
Print Assumptions C87_partitions_refuted.
(** A registered cluster is added to a mirrored topic once. *)
Theorem C87_remote : forall ro c n r s, sound_stores s ->
  (forall l, In (n, mkTopic false (ToRemotes l)) (topics s) -> In (r, MRemote) (mirrors s) -> ~ In r l ->
     fst (handle ro c (AddRemote n r) s) = Accepted /\ topic_now n (ToRemotes (l ++ [r])) s (snd (handle ro c (AddRemote n r) s))) /\
  ((forall l, In (n, mkTopic false (ToRemotes l)) (topics s) -> In (r, MRemote) (mirrors s) -> In r l) ->
     fst (handle ro c (AddRemote n r) s) <> Accepted /\ snd (handle ro c (AddRemote n r) s) = s).
Proof. exact remote_added. Qed.
Print Assumptions C87_remote.

(** What is not accepted changes nothing, *)
Theorem C87_refused : forall ro c q s, fst (handle ro c q s) <> Accepted -> snd (handle ro c q s) = s.
Proof. exact not_accepted. Qed.
Print Assumptions C87_refused.
(** what is accepted is stored as it was sent, *)
Theorem C87_made : forall ro c q s, sound_stores s -> fst (handle ro c q s) = Accepted -> made q s (snd (handle ro c q s)).
Proof. exact accepted_made. Qed.
Print Assumptions C87_made.
Example C87_made_ex : fst (handle false Root (CreateGroup (lit "g") 3) a_state) = Accepted.
Proof. exact eq_refl. Qed.
(** a trial gives the same answer and changes nothing, *)
Theorem C87_trial : forall ro c n t id sound s,
  (snd (handle ro c (CreateTopic n t true sound) s) = s /\
   fst (handle ro c (CreateTopic n t true sound) s) = fst (handle ro c (CreateTopic n t false sound) s)) /\
  (snd (handle ro c (CreateSpu n id true) s) = s /\
   fst (handle ro c (CreateSpu n id true) s) = fst (handle ro c (CreateSpu n id false) s)).
Proof. exact (fun ro c n t id sound s => conj (trial_topic ro c n t sound s) (trial_spu ro c n id s)). Qed.
Print Assumptions C87_trial.
(** and topics that do not pass the other checks are not created. *)
Theorem C87_unsound : forall ro c n t dry sound s, sound s = false -> fst (handle ro c (CreateTopic n t dry sound) s) <> Accepted.
Proof. exact unsound_topic. Qed.
Print Assumptions C87_unsound.
Example C87_unsound_ex : (fun s : sc => negb (length (spus s) =? 2)%nat) a_state = false.
Proof. exact eq_refl. Qed.
(** SmartModules are created and deleted as C84 says. *)
Theorem C87_modules : forall ro c n s,
  (forall m, proper_ctx c -> allowed c MayCreate SmartModule ->
     snd (handle ro c (CreateModule n m) s) = set_modules s (snd (create n m (modules s))) /\
     (fst (handle ro c (CreateModule n m) s) = Accepted <-> exists id, fst (create n m (modules s)) = Done id)) /\
  snd (handle ro c (DeleteModule n) s) = set_modules s (snd (delete n (modules s))) /\
  (fst (handle ro c (DeleteModule n) s) = Accepted <-> exists id, fst (delete n (modules s)) = Done id).
Proof. exact (fun ro c n s => conj (fun m => module_created ro c n m s) (module_deleted ro c n s)). Qed.
Print Assumptions C87_modules.
Example C87_modules_ex : proper_ctx two_roles /\ allowed Root MayCreate SmartModule.
Proof. exact (conj a_policy_proper I). Qed.
(** Requests of a connection are served one after the other, each in the state
    the one before has left, until one ends the connection. *)
Theorem C87_session : forall ro c q1 q2 s l1 s1, session ro c q1 s = (l1, s1) ->
  (In Closed l1 -> session ro c (q1 ++ q2) s = (l1, s1)) /\
  (~ In Closed l1 -> session ro c (q1 ++ q2) s = (l1 ++ fst (session ro c q2 s1), snd (session ro c q2 s1))).
Proof. exact session_app. Qed.
Print Assumptions C87_session.
