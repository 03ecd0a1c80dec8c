(** Connectors: C112 and C113. *)
From Coq Require Import ZArith List Bool.
Import ListNotations.
From Verif Require Import Base ConnModel ConnSpec ConnProofs ConnClaims.
Open Scope Z_scope.

(** A package accepts a config exactly if its common part can be read, the names of its secrets are valid, everything the schema requires is there at every depth, its direction is the package's, and the package has a binary or the image of that type and version, not both. *)
Theorem C112_accepted : forall k v c r, validate_config k v c = Some r <->
  c = Some r /\ (forall n, In n (declared r) -> valid_name n = true) /\
  (forall s, u_schema (k_custom k) = Some s ->
     complete s /\ forall p, needed s p -> value_at (custom_part (u_name (k_custom k)) v) p <> None) /\
  k_direction k = direction_of r /\
  ((p_image (k_deployment k) = None /\ p_binary (k_deployment k) <> None) \/
   (p_image (k_deployment k) = Some (image_of r) /\ p_binary (k_deployment k) = None)).
Proof. exact accepted. Qed.
Print Assumptions C112_accepted.
Example C112_accepted_example : validate_config (mkPackage (mkDirection true false) (mkDeployment None (Some a)) (mkCustom None (Some (Object true [(b, Some port)] [b]))))
  (YMap [(custom_name, YMap [(b, YMap [(a, YNull)])])]) (Some (plain V1 [K] None)) = Some (plain V1 [K] None).
Proof. reflexivity. Qed.

(** The package is for one direction, and it is a source exactly if the type of the config ends in -source. *)
Theorem C112_direction : forall k v c r, validate_config k v c = Some r -> d_source (k_direction k) = negb (d_dest (k_direction k)) /\
  (d_source (k_direction k) = true <-> exists t, c_type r = t ++ source_suffix).
Proof. exact ways. Qed.
Print Assumptions C112_direction.
Example C112_direction_example : c_type (plain V1 [] None) = [104; 116; 116; 112] ++ source_suffix.
Proof. reflexivity. Qed.

(** The part of the config that is checked is the section the package names, or the one called custom. *)
Theorem C112_section : forall name v, custom_part name v =
  match value_at v [match name with Some n => n | None => [99; 117; 115; 116; 111; 109] end] with Some w => w | None => YMap [] end.
Proof. exact section. Qed.
Print Assumptions C112_section.

(** An image tells type and version. *)
Theorem C112_image : forall c d, ~ In 58 (c_type c) -> ~ In 58 (c_type d) -> image_of c = image_of d -> c_type c = c_type d /\ c_release c = c_release d.
Proof. exact image_tells. Qed.
Print Assumptions C112_image.
Example C112_image_example : ~ In 58 (c_type (plain V1 [] None)) /\ image_of (plain V1 [] None) = image_prefix ++ [45] ++ http_source ++ [58; 49].
Proof. split; [vm_compute; intuition discriminate | reflexivity]. Qed.

(** The types of the schema are not looked at: where a type is required any value is accepted. *)
Theorem C112_types_refuted : exists s v p t w, complete s /\ needed s p /\ leads s p (Type_ t) /\ value_at v p = Some w /\ validate_schema s v = true /\
  forall w', exists v', value_at v' p = Some w' /\ validate_schema s v' = true.
Proof. exact types. Qed.
Print Assumptions C112_types_refuted.

(** What an optional property requires can be missing though the property is there. *)
Theorem C112_optional_refuted : exists s k t v, property s k = Some (Some t) /\ ~ In k (required_of s) /\
  (exists w, value_at v [k] = Some w /\ validate_schema t w = false) /\ validate_schema s v = true.
Proof. exact optional. Qed.
Print Assumptions C112_optional_refuted.

(** Names of secrets are letters, digits and underscores, with no digit first. *)
Theorem C112_names : forall n, valid_name n = true <-> exists c r, n = c :: r /\ ~ (48 <= c <= 57) /\
  forall y, In y n -> (48 <= y <= 57) \/ (65 <= y <= 90) \/ (97 <= y <= 122) \/ y = 95.
Proof. exact valid_name_exactly. Qed.
Print Assumptions C112_names.

(** From a file of lines name=value a secret is read as it was written, if it is one line without white space around it. *)
Theorem C112_file : forall l n v, (forall e, In e l -> valid_name (fst e) = true /\ ~ In 10 (snd e)) ->
  valid_name n = true -> lookup n l = Some v -> bare v -> read_file (file_of l) n = Some v.
Proof. exact file_exact. Qed.
Print Assumptions C112_file.
Example C112_file_example : read_file (file_of [(a, [49]); (K, [61; 32; 61]); (K, [50])]) K = Some [61; 32; 61].
Proof. reflexivity. Qed.

(** In general white space around it is lost, and of several lines the first counts. *)
Theorem C112_file_trimmed : forall l n, (forall e, In e l -> valid_name (fst e) = true /\ ~ In 10 (snd e)) ->
  valid_name n = true -> read_file (file_of l) n = option_map trim (lookup n l).
Proof. exact file_read. Qed.
Print Assumptions C112_file_trimmed.
Example C112_file_trimmed_example : valid_name K = true /\ ~ In 10 [9; 97; 13].
Proof. split; [reflexivity | intros [X | [X | [X | []]]]; discriminate]. Qed.

(** Nothing but the white space around it is lost. *)
Theorem C112_trimmed : forall v, bare (trim v) /\ exists s e, v = s ++ trim v ++ e /\ forallb white s = true /\ forallb white e = true.
Proof. exact trimmed. Qed.
Print Assumptions C112_trimmed.

(** A secret that is not in the file is not found. *)
Theorem C112_file_absent : forall l n, (forall e, In e l -> valid_name (fst e) = true /\ ~ In 10 (snd e)) ->
  valid_name n = true -> ~ In n (map fst l) -> read_file (file_of l) n = None.
Proof. exact file_absent. Qed.
Print Assumptions C112_file_absent.
Example C112_file_absent_example : ~ In x (map fst [(K, a); (a, b)]).
Proof. intros [X | [X | []]]; discriminate. Qed.

(** Lines without an = and white space around a name do no harm, and the last line needs no end. *)
Theorem C112_layout : forall l f n, (forall i, In i l -> fine i) -> valid_name n = true -> (f = free_file l \/ f ++ [10] = free_file l) ->
  read_file f n = option_map trim (first_entry n l).
Proof. exact layout. Qed.
Print Assumptions C112_layout.
Example C112_layout_example : (forall i, In i [Note [35; 32; 97]; Note []; Entry [32] K [32; 9] [32; 120]] -> fine i) /\
  read_file [35; 32; 97; 10; 10; 32; 75; 32; 9; 61; 32; 120] K = Some [120].
Proof.
  split; [|reflexivity]. intros i [<- | [<- | [<- | []]]]; vm_compute; intuition discriminate.
Qed.

(** With a secrets file the config is rendered exactly if all secrets it declares are in the file and all it uses are declared; then each use is replaced by the value, and nothing else changes. The environment has no say. *)
Theorem C112_rendered : forall l env c t out,
  (forall e, In e l -> valid_name (fst e) = true /\ ~ In 10 (snd e) /\ bare (snd e)) ->
  (forall n, In n (declared c) -> valid_name n = true) ->
  (render (store (Some (file_of l)) env) c t = Some out <->
   (forall n, In n (declared c) -> In n (map fst l)) /\ (forall n, In (Use n) t -> In n (declared c)) /\ filled (fun n => lookup n l) t out).
Proof. exact rendered_file. Qed.
Print Assumptions C112_rendered.
Example C112_rendered_example : render (store (Some (file_of [(K, [49]); (a, [50])])) []) (plain V1 [a; K] None) [Text b; Use K; Text b; Use a; Use K] = Some [98; 49; 98; 50; 49].
Proof. reflexivity. Qed.

(** Without a file the secrets are those of the environment, as they are. *)
Theorem C112_rendered_env : forall env c t out, render (store None env) c t = Some out <->
  (forall n, In n (declared c) -> In n (map fst env)) /\ (forall n, In (Use n) t -> In n (declared c)) /\ filled (fun n => lookup n env) t out.
Proof. exact rendered_env. Qed.
Print Assumptions C112_rendered_env.

(** A secret that ends in a space is another one when it is read from a file. *)
Theorem C112_space_refuted : exists n v, valid_name n = true /\ ~ In 10 v /\ read_file (file_of [(n, v)]) n <> Some v /\ read_env [(n, v)] n = Some v.
Proof. exact file_space. Qed.
Print Assumptions C112_space_refuted.

(** A secret of several lines, such as a key, cannot be put into a file: it is cut, and its other lines are taken for other secrets. *)
Theorem C112_newline_refuted : exists n v m, valid_name n = true /\ valid_name m = true /\ n <> m /\ bare v /\
  read_file (file_of [(n, v)]) n <> Some v /\ read_file (file_of [(n, v)]) m <> None.
Proof. exact file_newline. Qed.
Print Assumptions C112_newline_refuted.

(** The secrets of a config count exactly if it has a version. *)
Theorem C112_versioned : forall c, declared c = c_secrets c <-> c_version c <> V0 \/ c_secrets c = [].
Proof. exact versioned. Qed.
Print Assumptions C112_versioned.

(** A config without a version cannot use secrets: it is not rendered. *)
Theorem C112_unversioned : forall st c t n, c_version c = V0 -> In (Use n) t -> render st c t = None.
Proof. exact unversioned. Qed.
Print Assumptions C112_unversioned.
Example C112_unversioned_example : c_version (plain V0 [K] None) = V0 /\ In (Use K) [Text a; Use K].
Proof. split; [reflexivity | right; left; reflexivity]. Qed.

(** Not even if it declares them. *)
Theorem C112_unversioned_refuted : exists st c t n, c_version c = V0 /\ In n (c_secrets c) /\ st n <> None /\ In (Use n) t /\ render st c t = None.
Proof. exact unversioned_case. Qed.
Print Assumptions C112_unversioned_refuted.

(** A secret is put into the text of the config before it is parsed: whatever one can write into a config, the value of a secret can. *)
Theorem C112_structure_refuted : forall c n before after y, c_version c <> V0 -> c_secrets c = [n] ->
  exists env, render (store None env) c [Text before; Use n; Text after] = render (store None []) (plain V1 [] None) [Text (before ++ y ++ after)].
Proof. exact structure. Qed.
Print Assumptions C112_structure_refuted.
Example C112_structure_refuted_example : exists c n before after y, c_version c <> V0 /\ c_secrets c = [n] /\ In 10 y /\
  render (store None [(n, y)]) c [Text before; Use n; Text after] = Some (before ++ y ++ after).
Proof. exact structure_case. Qed.

(** A sink reads the topic of its config, with its SmartModules, its consumer id, its strategy and its start; without a start it begins at the end, and without a section on offsets none are saved. *)
Theorem C113_taken : forall c q, consumer_request c = Some q -> q_topic q = c_topic c /\ q_modules q = c_transforms c /\
  q_id q = (match c_consumer c with Some n => n_id n | None => None end) /\
  (forall n o, c_consumer c = Some n -> n_offsets n = Some o ->
     q_strategy q = f_strategy o /\ q_flush q = f_flush o /\ forall s, f_start o = Some s -> q_start q = s) /\
  ((forall n o, c_consumer c = Some n -> n_offsets n = Some o -> f_start o = None) -> q_start q = End) /\
  ((forall n, c_consumer c = Some n -> n_offsets n = None) -> q_strategy q = NoOffsets /\ q_flush q = None).
Proof. exact taken. Qed.
Print Assumptions C113_taken.
Example C113_taken_example : exists q, consumer_request (reads (One 3) (Some 100) (Some a) (Some (mkOffsets (Some (FromEnd 2)) Auto None))) = Some q /\ q_start q = FromEnd 2 /\ q_strategy q = Auto.
Proof. eexists. repeat split. Qed.

(** It reads exactly the partitions the config names, and all of the topic if it names none. *)
Theorem C113_partitions : forall c q count p, consumer_request c = Some q -> 0 <= count -> (forall n, c_consumer c = Some n -> n_partitions n <> Many []) ->
  (In p (opened q count) <-> named c count p).
Proof. exact opens. Qed.
Print Assumptions C113_partitions.
Example C113_partitions_example : exists q, consumer_request (reads (Many [2; 0]) None None None) = Some q /\ opened q 3 = [2; 0].
Proof. eexists. repeat split. Qed.

(** Each once, if the config names each once. *)
Theorem C113_once : forall c q count, consumer_request c = Some q -> (forall n l, c_consumer c = Some n -> n_partitions n = Many l -> NoDup l) -> NoDup (opened q count).
Proof. exact opens_once. Qed.
Print Assumptions C113_once.
Example C113_once_example : consumer_request (reads All None None None) <> None /\ NoDup [2; 0].
Proof. split; [discriminate|]. constructor; [intros [X | []]; discriminate | constructor; [intros [] | constructor]]. Qed.

(** An empty list of partitions means all. *)
Theorem C113_none_refuted : exists c q, c_consumer c = Some (mkConsumer (Many []) None None None) /\ consumer_request c = Some q /\ opened q 3 = [0; 1; 2].
Proof. exact opens_all. Qed.
Print Assumptions C113_none_refuted.

(** A partition that is named twice is read twice. *)
Theorem C113_twice_refuted : exists c q, consumer_request c = Some q /\ opened q 3 = [1; 1].
Proof. exact opens_twice. Qed.
Print Assumptions C113_twice_refuted.

(** A sink does not start exactly if its start is negative, or offsets are to be saved and there is no consumer id. *)
Theorem C113_refused : forall c, consumer_request c = None <->
  exists n o, c_consumer c = Some n /\ n_offsets n = Some o /\
    ((exists k, f_start o = Some (Absolute k) /\ k < 0) \/ (f_strategy o <> NoOffsets /\ n_id n = None)).
Proof. exact refused. Qed.
Print Assumptions C113_refused.

(** The limit of bytes is the config's exactly if it is less than 2 GiB. *)
Theorem C113_max_bytes : forall c q n m, consumer_request c = Some q -> c_consumer c = Some n -> n_max_bytes n = Some m -> 0 <= m ->
  (q_max_bytes q = Some m <-> m < 2 ^ 31).
Proof. exact bytes_taken. Qed.
Print Assumptions C113_max_bytes.
Example C113_max_bytes_example : exists q, consumer_request (reads All (Some 1000) None None) = Some q /\ q_max_bytes q = Some 1000.
Proof. eexists. repeat split. Qed.

(** 4 GiB become 0. *)
Theorem C113_max_bytes_refuted : exists c q, consumer_request c = Some q /\ c_consumer c = Some (mkConsumer All (Some 4294967296) None None) /\ q_max_bytes q = Some 0.
Proof. exact bytes_lost. Qed.
Print Assumptions C113_max_bytes_refuted.

(** A connector that starts has its topic, with the settings of the config if it was not there; topics that exist stay as they are, and no other is created. *)
Theorem C113_topic : forall c listed later, let r := ensure_topic c listed later in
  (fst r = true -> (forall t v, lookup t listed = Some v -> lookup t later = Some v) ->
     exists v, lookup (c_topic c) (snd r) = Some v /\ (lookup (c_topic c) later = None ->
       (c_version c = V2 -> v = Some (c_topic_config c)) /\ (c_version c <> V2 -> v = None))) /\
  (forall t v, lookup t later = Some v -> lookup t (snd r) = Some v) /\
  (forall t, lookup t later = None -> t <> c_topic c -> lookup t (snd r) = None).
Proof. exact topic_there. Qed.
Print Assumptions C113_topic.
Example C113_topic_example : ensure_topic (plain V2 [] None) [(a, None)] [(a, None)] = (true, [(a, None); (b, Some 7)]).
Proof. reflexivity. Qed.

(** A connector does not start, though its topic is there, if another one creates it at the same time. *)
Theorem C113_race_refuted : exists c listed later, (forall t v, lookup t listed = Some v -> lookup t later = Some v) /\
  lookup (c_topic c) later = Some None /\ fst (ensure_topic c listed later) = false.
Proof. exact topic_race. Qed.
Print Assumptions C113_race_refuted.
