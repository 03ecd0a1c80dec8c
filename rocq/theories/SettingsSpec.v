(** What a topic should be like, in terms of what was asked for. *)
From Coq Require Import ZArith List Bool.
Import ListNotations.
From Verif Require Import WireModel StorageModel SettingsModel.
Open Scope Z_scope.

(** the storage of a replica is as asked for, and otherwise as the SPU is
    configured: times in whole seconds, sizes in bytes *)
Definition as_asked (retention : option duration) (segment max : option Z) (d c : config) : Prop :=
  c_retention c = match retention with Some x => d_secs x | None => c_retention d end /\
  c_seg_max c = match segment with Some s => s | None => c_seg_max d end /\
  c_part_max c = match max with Some m => m | None => c_part_max d end /\
  c_req_max c = c_req_max d /\ c_interval c = c_interval d /\ c_entries c = c_entries d.

(** numbers of 32 bits *)
Definition fits (retention : option duration) (segment : option Z) : Prop :=
  match retention with Some x => 0 <= d_secs x < 2 ^ 32 | None => True end /\
  match segment with Some s => 0 <= s < 2 ^ 32 | None => True end.

(** the limits: ten seconds, a kilobyte for a segment, two for a partition, and a
    partition has room for a segment *)
Definition within_limits (retention : option duration) (segment max : option Z) : Prop :=
  match retention with Some x => 10 <= d_secs x | None => True end /\
  match segment with Some s => 1024 <= s | None => True end /\
  match max with
  | Some m => 2048 <= m /\ match segment with Some s => s | None => 2 ^ 30 end <= m
  | None => True
  end.

(** a file that asks for what the flags ask for *)
Definition same_request (f : flags) (y : file) : Prop :=
  y_maps y = f_maps f /\
  match y_count y with Some n => n | None => 1 end = f_partitions f /\
  match y_replication y with Some n => n | None => 1 end = f_replication f /\
  match y_ignore_rack y with Some b => b | None => false end = f_ignore_rack f /\
  y_retention y = f_retention f /\ y_segment y = f_segment f /\ y_max y = f_max f /\
  y_compression y = f_compression f /\
  (if f_dedup f then y_dedup y = Some (mkDedup (f_count f) (Some (f_age f)) default_filter []) else y_dedup y = None) /\
  f_system f = false.

(** the last value given for a parameter *)
Fixpoint last_for (k : Z) (l : list (Z * Z)) (v : option Z) : option Z :=
  match l with [] => v | (k', v') :: r => last_for k r (if k =? k' then Some v' else v) end.

(** the messages are about this topic only *)
Definition only_about (topic : Z) (l : list watched) : Prop :=
  forall changes c, In (Some changes) l -> In c changes -> fst c = topic.
(** before the time is up, a message says that the topic has this many partitions *)
Definition seen (topic n : Z) (l : list watched) : Prop :=
  exists before changes after, l = before ++ Some changes :: after /\ ~ In None before /\ In (topic, n) changes.
