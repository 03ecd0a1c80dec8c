(** Connectors: which configs a package accepts, how secrets get into a config,
    and what a connector asks the cluster for.
    Source: crates/fluvio-connector-package/src (metadata.rs, config/mod.rs,
    secret.rs, render), crates/fluvio-connector-derive/src/generator.rs and
    crates/fluvio-connector-common/src.

    Simplifications, for the whole file:
    - a text is the list of its characters; a secrets file can be read and is
      UTF-8;
    - YAML: values have no tags, and keys of mappings are texts; how a config is
      parsed is not modelled, so a config comes with its parsed common part;
    - a template is a list of pieces, plain text and uses of secrets; the other
      constructs of the template engine (minijinja) are not modelled;
    - durations, compressions, SmartModule steps and topic settings are numbers
      or texts. *)
From Coq Require Import ZArith List Bool.
Import ListNotations.
From Verif Require Import Base.
Open Scope Z_scope.

Definition text := list Z.
Definition same (a b : text) : bool := if list_eq_dec Z.eq_dec a b then true else false.
Fixpoint lookup {A} (k : text) (l : list (text * A)) : option A :=
  match l with [] => None | (x, v) :: t => if same x k then Some v else lookup k t end.

(** * The config of a connector *)

(** [serde_yaml::Value] *)
Inductive yaml :=
| YNull
| YBool (b : bool)
| YNum (n : Z)
| YStr (s : text)
| YSeq (l : list yaml)
| YMap (l : list (text * yaml)).

(** [SchemaKind] of openapiv3 as it is used: an object, or any kind, with its
    properties and the names of those that are required; all else is a type.
    A property that is a reference has no schema here. *)
Inductive schema :=
| Type_ (t : Z)
| Object (any : bool) (props : list (text * option schema)) (required : list text).

(** [validate_schema_object], metadata.rs:288-327 *)
Fixpoint validate_schema (s : schema) (v : yaml) : bool :=
  match s with
  | Type_ _ => true
  | Object _ props required =>
      match required with
      | [] => true
      | _ =>
          match v with
          | YMap m =>
              let checks := map (fun p => match p with (n, None) => (n, None) | (n, Some s') => (n, Some (validate_schema s')) end) props in
              forallb (fun k =>
                match lookup k checks, lookup k m with
                | None, _ => false
                | Some (Some f), Some x => f x
                | _, None => false
                | Some None, Some _ => true
                end) required
          | _ => false
          end
      end
  end.

(** "custom" *)
Definition custom_name : text := [99; 117; 115; 116; 111; 109].

(** [Value::get] of a text *)
Definition yget (k : text) (v : yaml) : option yaml := match v with YMap m => lookup k m | _ => None end.

(** [CustomConfigSchema], metadata.rs:56-62 *)
Record custom := mkCustom { u_name : option text; u_schema : option schema }.
(** the part of a config that is the connector's own: metadata.rs:277-283 and
    get_value of connector-common/src/config.rs:19-29 *)
Definition custom_part (name : option text) (v : yaml) : yaml :=
  match yget (match name with Some n => n | None => custom_name end) v with Some x => x | None => YMap [] end.
(** [validate_custom_config], metadata.rs:273-286 *)
Definition validate_custom (u : custom) (v : yaml) : bool :=
  match u_schema u with None => true | Some s => validate_schema s (custom_part (u_name u) v) end.

(** [Direction], metadata.rs:42-48; [Deployment] 50-54; [ConnectorMetadata] 11-18 *)
Record direction := mkDirection { d_source : bool; d_dest : bool }.
Record deployment := mkDeployment { p_image : option text; p_binary : option text }.
Record package := mkPackage { k_direction : direction; k_deployment : deployment; k_custom : custom }.

Inductive version := V0 | V1 | V2.
(** [ConsumerPartitionConfig], config/mod.rs:402-408 *)
Inductive partitions := All | One (p : Z) | Many (l : list Z).
(** [OffsetConfig], config/mod.rs:497-504 *)
Inductive offset := Absolute (n : Z) | Beginning | FromBeginning (n : Z) | End | FromEnd (n : Z).
Inductive strategy := NoOffsets | Manual | Auto.
(** [ConsumerOffsetConfig], config/mod.rs:487-495 *)
Record offsets := mkOffsets { f_start : option offset; f_strategy : strategy; f_flush : option Z }.
(** [ConsumerParameters], config/mod.rs:277-293 *)
Record consumer := mkConsumer { n_partitions : partitions; n_max_bytes : option Z; n_id : option text; n_offsets : option offsets }.
(** [ConnectorConfig], config/mod.rs:38-47 with [MetaConfigV1] 113-132 and
    [MetaConfigV2] 166-185: [c_topic_config] is the topic's settings, which
    version 2 has; the parameters of a producer are left out *)
Record config := mkConfig { c_version : version; c_name : text; c_type : text; c_topic : text; c_topic_config : Z; c_release : text;
                            c_consumer : option consumer; c_secrets : list text; c_transforms : list text }.

Definition ends_with (s l : text) : bool := same (skipn (length l - length s) l) s.
(** "-source" *)
Definition source_suffix : text := [45; 115; 111; 117; 114; 99; 101].
(** "infinyon/fluvio-connect" *)
Definition image_prefix : text := [105; 110; 102; 105; 110; 121; 111; 110; 47; 102; 108; 117; 118; 105; 111; 45; 99; 111; 110; 110; 101; 99; 116].
(** [direction], config/mod.rs:139-145 and 192-198 *)
Definition direction_of (c : config) : direction :=
  if ends_with source_suffix (c_type c) then mkDirection true false else mkDirection false true.
(** [image], config/mod.rs:147-149 and 200-202 *)
Definition image_of (c : config) : text := image_prefix ++ [45] ++ c_type c ++ [58] ++ c_release c.

(** [validate_direction], metadata.rs:239-249 *)
Definition validate_direction (d : direction) (c : config) : bool :=
  Bool.eqb (d_source (direction_of c)) (d_source d) && Bool.eqb (d_dest (direction_of c)) (d_dest d).
(** [validate_deployment], metadata.rs:251-271 *)
Definition validate_deployment (p : deployment) (c : config) : bool :=
  match p_image p, p_binary p with
  | None, None => false
  | None, Some _ => true
  | Some i, None => same i (image_of c)
  | Some _, Some _ => false
  end.

(** * Secrets *)

Definition digit (c : Z) : bool := (48 <=? c) && (c <=? 57).
Definition letter (c : Z) : bool := ((65 <=? c) && (c <=? 90)) || ((97 <=? c) && (c <=? 122)).
(** [SecretName::validate], config/mod.rs:338-359 *)
Definition valid_name (n : text) : bool :=
  match n with [] => false | c :: _ => forallb (fun x => digit x || letter x || (x =? 95)) n && negb (digit c) end.

(** [validate_config], metadata.rs:226-236, of a config whose common part was
    parsed as [c]; [from_value], config/mod.rs:622-628, checks the names of
    secrets; [secrets] 635-641 *)
Definition declared (c : config) : list text := match c_version c with V0 => [] | _ => c_secrets c end.
Definition validate_config (k : package) (v : yaml) (c : option config) : option config :=
  if validate_custom (k_custom k) v then
    match c with
    | Some c => if forallb valid_name (declared c) && validate_direction (k_direction k) c && validate_deployment (k_deployment k) c then Some c else None
    | None => None
    end
  else None.

(** [char::is_whitespace] of std *)
Definition white (c : Z) : bool :=
  ((9 <=? c) && (c <=? 13)) || (c =? 32) || (c =? 133) || (c =? 160) || (c =? 5760) || ((8192 <=? c) && (c <=? 8202)) ||
  (c =? 8232) || (c =? 8233) || (c =? 8239) || (c =? 8287) || (c =? 12288).
Fixpoint trim_start (l : text) : text := match l with [] => [] | c :: t => if white c then trim_start t else l end.
(** [str::trim] *)
Definition trim (l : text) : text := rev (trim_start (rev (trim_start l))).

(** [BufRead::lines]: without "\n" or "\r\n"; nothing after the last "\n" is no
    line *)
Fixpoint split_lines (l acc : text) : list text :=
  match l with
  | [] => match acc with [] => [] | _ => [acc] end
  | c :: t => if c =? 10 then acc :: split_lines t [] else split_lines t (acc ++ [c])
  end.
Definition drop_cr (l : text) : text :=
  match rev l with c :: t => if c =? 13 then rev t else l | [] => l end.
(** a last line without "\n" keeps a "\r"; it is white and trimmed anyway *)
Definition lines (l : text) : list text := map drop_cr (split_lines l []).

(** [split_once('=')] *)
Fixpoint split_eq (l acc : text) : option (text * text) :=
  match l with [] => None | c :: t => if c =? 61 then Some (acc, t) else split_eq t (acc ++ [c]) end.

(** [FileSecretStore::read], secret.rs:84-98 *)
Fixpoint read_lines (ls : list text) (name : text) : option text :=
  match ls with
  | [] => None
  | l :: t =>
      match split_eq l [] with
      | Some (k, v) => if same (trim k) (trim name) then Some (trim v) else read_lines t name
      | None => read_lines t name
      end
  end.
Definition read_file (f : text) (name : text) : option text := read_lines (lines f) name.
(** [EnvSecretStore::read], secret.rs:78-82 *)
Definition read_env (env : list (text * text)) (name : text) : option text := lookup name env.

(** the store of a connector, generator.rs:135-146: the file if one is named *)
Definition store (secrets : option text) (env : list (text * text)) : text -> option text :=
  match secrets with Some f => read_file f | None => read_env env end.

(** * Rendering *)

Inductive piece := Text (t : text) | Use (name : text).

(** [extract_context_values], render/context.rs:31-41: all secrets the config
    declares *)
Fixpoint context (st : text -> option text) (names : list text) : option (list (text * text)) :=
  match names with
  | [] => Some []
  | n :: r =>
      match st n with
      | None => None
      | Some v => match context st r with Some l => Some ((n, v) :: l) | None => None end
      end
  end.
(** the template engine; what is not defined is an error, render/mod.rs:34 *)
Fixpoint expand (ctx : list (text * text)) (t : list piece) : option text :=
  match t with
  | [] => Some []
  | Text x :: r => match expand ctx r with Some y => Some (x ++ y) | None => None end
  | Use n :: r =>
      match lookup n ctx with
      | None => None
      | Some v => match expand ctx r with Some y => Some (v ++ y) | None => None end
      end
  end.
(** [render_str], render/mod.rs:47-65, of a config whose text before rendering is
    parsed as [c] *)
Definition render (st : text -> option text) (c : config) (t : list piece) : option text :=
  match context st (declared c) with Some ctx => expand ctx t | None => None end.

(** * What a connector asks for *)

(** [ConsumerConfigExt], fluvio/src/consumer/config.rs:81-109; [None]: the default
    of the client *)
Record request := mkRequest { q_topic : text; q_partitions : list Z; q_start : offset; q_id : option text; q_strategy : strategy;
                              q_flush : option Z; q_max_bytes : option Z; q_modules : list text }.

(** [consumer_stream_from_config], connector-common/src/consumer.rs:25-80, with
    the check of [build], consumer/config.rs:161-176 *)
Definition consumer_request (c : config) : option request :=
  let off := match c_consumer c with Some n => n_offsets n | None => None end in
  let id := match c_consumer c with Some n => n_id n | None => None end in
  let start := match off with Some o => match f_start o with Some s => s | None => End end | None => End end in
  let strat := match off with Some o => f_strategy o | None => NoOffsets end in
  let parts := match c_consumer c with Some n => match n_partitions n with All => [] | One p => [p] | Many l => l end | None => [] end in
  let bytes := match c_consumer c with Some n => option_map (wrap_s 32) (n_max_bytes n) | None => None end in
  if match start with Absolute n => n <? 0 | _ => false end then None
  else if match strat, id with NoOffsets, _ => false | _, Some _ => false | _, None => true end then None
  else Some (mkRequest (c_topic c) parts start id strat (match off with Some o => f_flush o | None => None end) bytes (c_transforms c)).

(** the partitions whose streams are opened, fluvio/src/fluvio.rs:410-422 (no
    mirror), of a topic with [count] partitions *)
Definition opened (q : request) (count : Z) : list Z :=
  match q_partitions q with [] => map Z.of_nat (seq 0 (Z.to_nat count)) | l => l end.

(** [ensure_topic_exists], connector-common/src/lib.rs:44-71: what is listed, and
    the topics when the request to create one arrives, which the SC refuses if
    there is such a topic. The default, [new_computed(1, 1, false)], is [None] *)
Definition topics := list (text * option Z).
Definition topic_settings (c : config) : option Z := match c_version c with V2 => Some (c_topic_config c) | _ => None end.
Definition ensure_topic (c : config) (listed later : topics) : bool * topics :=
  match lookup (c_topic c) listed with
  | Some _ => (true, later)
  | None => match lookup (c_topic c) later with Some _ => (false, later) | None => (true, later ++ [(c_topic c, topic_settings c)]) end
  end.
