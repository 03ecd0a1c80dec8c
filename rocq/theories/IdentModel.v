(** Model of how SPUs get their ids: SPU groups and the controllers that turn them
    into SPUs, custom SPUs that are registered, and the id and the address a pod of
    a group has.

    Source (paths below /repo/crates):
    - fluvio-sc/src/k8/objects/spg_group.rs,
      fluvio-sc/src/k8/controllers/spg_stateful.rs, spu_controller.rs;
    - fluvio-sc/src/stores/spu/mod.rs, store.rs;
    - fluvio-sc/src/services/public_api/spg/create.rs, delete.rs,
      spu/register_custom_spus_req.rs, unregister_custom_spus_req.rs;
    - fluvio-sc/src/controllers/spus/controller.rs;
    - fluvio-controlplane-metadata/src/spg/spec.rs, status.rs;
    - fluvio-spu/src/config/cli.rs.

    Left out: authorization (AuthModel), services and their addresses, stateful
    sets. The stores follow Kubernetes at once; children of a group that is deleted
    are deleted with it (Kubernetes' garbage collector). Arithmetic is that of a
    release build. *)
From Coq Require Import ZArith List Bool.
Import ListNotations.
From Verif Require Import Base NameModel.
Open Scope Z_scope.

(** [SpuGroupStatusResolution], spg/status.rs:47-57 *)
Inductive status := Init | Invalid | Reserved.

(** a group: [SpuGroupSpec], spg/spec.rs:12-22, with its uid and its status *)
Record group := mkGroup { g_uid : Z; g_name : bytes; g_replicas : Z; g_min : Z; g_status : status }.

(** an SPU of the SC's store; [s_online]: [None] while the status is init *)
Record spu := mkSpu { s_name : bytes; s_id : Z; s_custom : bool; s_owner : option Z; s_online : option bool }.

(** [w_pending]: the groups whose change the controller of groups has not seen;
    [w_flight]: requests to register a custom SPU that passed the checks *)
Record world := mkWorld { w_groups : list group; w_spus : list spu; w_uid : Z; w_pending : list bytes; w_flight : list (bytes * Z) }.

Definition same (a b : bytes) : bool := if list_eq_dec Z.eq_dec a b then true else false.

(** * The SPUs of a group *)

(** [compute_spu_id], spg_group.rs:174-177 *)
Definition compute_spu_id (min index : Z) : Z := wrap_s 32 (index + min).

(** [as_spu], spg_group.rs:96-160: name and id; the name is "group-index" *)
Definition as_spu (g : group) (i : Z) : spu :=
  mkSpu (print_replica (g_name g) i) (compute_spu_id (g_min g) i) false (Some (g_uid g)) None.

(** [0..replicas], spu_controller.rs:165-166 *)
Definition indices (g : group) : list Z := map Z.of_nat (seq 0 (Z.to_nat (g_replicas g))).

(** [WSAction::Apply] and [UpdateSpec] on the store of SPUs,
    stream-dispatcher/src/dispatcher/metadata.rs:197-219: an SPU of that name gets
    the new specification and keeps its status. Simplification: it also gets the
    new owner *)
Definition put (s : spu) (l : list spu) : list spu :=
  if existsb (fun x => same (s_name x) (s_name s)) l
  then map (fun x => if same (s_name x) (s_name s) then mkSpu (s_name s) (s_id s) (s_custom s) (s_owner s) (s_online x) else x) l
  else l ++ [s].

(** [sync_spu], spu_controller.rs:152-179: for all groups, whatever their status *)
Definition sync_spu (groups : list group) (spus : list spu) : list spu :=
  fold_left (fun l s => put s l) (flat_map (fun g => map (as_spu g) (indices g)) groups) spus.

(** * Conflicts *)

(** [is_conflict], stores/spu/mod.rs:13-28 *)
Definition is_conflict (spus : list spu) (uid start stop : Z) : bool :=
  existsb (fun s => negb (match s_owner s with Some o => o =? uid | None => false end) && (start <=? s_id s) && (s_id s <? stop)) spus.

(** [is_conflict_with], spg_group.rs:49-66 *)
Definition is_conflict_with (g : group) (spus : list spu) : bool :=
  match g_status g with
  | Reserved => false
  | _ => is_conflict spus (g_uid g) (g_min g) (wrap_s 32 (g_min g + g_replicas g))
  end.

(** [sync_spg_to_statefulset], spg_stateful.rs:169-217: the status afterwards; for
    a reserved group the stateful set follows *)
Definition check (g : group) (spus : list spu) : status :=
  if is_conflict_with g spus then Invalid else Reserved.

Definition set_status (s : status) (g : group) : group := mkGroup (g_uid g) (g_name g) (g_replicas g) (g_min g) s.
Definition status_eqb (a b : status) : bool :=
  match a, b with Init, Init | Invalid, Invalid | Reserved, Reserved => true | _, _ => false end.

(** * Custom SPUs *)

(** [validate_custom_spu_request], register_custom_spus_req.rs:76-100 *)
Definition free (name : bytes) (id : Z) (spus : list spu) : bool :=
  negb (existsb (fun s => same (s_name s) name) spus || existsb (fun s => s_id s =? id) spus).

(** * What happens *)

Inductive event :=
| CreateGroup (name : bytes) (replicas min : Z)
| DeleteGroup (name : bytes)
| CheckGroup (name : bytes)
| Sync
| Validate (name : bytes) (id : Z)
| Register (name : bytes) (id : Z)
| Unregister (name : bytes)
| Health (id : Z) (up : bool)
| Restart.

Definition find_group (name : bytes) (l : list group) : option group := find (fun g => same (g_name g) name) l.

(** [sync_store], controllers/spus/controller.rs:76-123, after a report about an
    SPU *)
Definition report (id : Z) (up : bool) (s : spu) : spu :=
  if s_id s =? id then mkSpu (s_name s) (s_id s) (s_custom s) (s_owner s) (Some up) else s.

Definition step (w : world) (e : event) : world :=
  match e with
  | CreateGroup name replicas min =>
      (* spg/create.rs:62-85: [UpdateSpec], so a group of that name is changed *)
      match find_group name (w_groups w) with
      | Some _ =>
          mkWorld (map (fun g => if same (g_name g) name then mkGroup (g_uid g) name replicas min (g_status g) else g) (w_groups w))
                  (w_spus w) (w_uid w) (name :: w_pending w) (w_flight w)
      | None => mkWorld (w_groups w ++ [mkGroup (w_uid w) name replicas min Init]) (w_spus w) (w_uid w + 1) (name :: w_pending w) (w_flight w)
      end
  | DeleteGroup name =>
      (* spg/delete.rs:17-61 *)
      match find_group name (w_groups w) with
      | Some g =>
          mkWorld (filter (fun x => negb (same (g_name x) name)) (w_groups w))
                  (filter (fun s => negb (match s_owner s with Some o => o =? g_uid g | None => false end)) (w_spus w))
                  (w_uid w) (w_pending w) (w_flight w)
      | None => w
      end
  | CheckGroup name =>
      (* spg_stateful.rs:132-167: a changed group; a changed status is a change *)
      if existsb (same name) (w_pending w) then
        let pending := filter (fun n => negb (same name n)) (w_pending w) in
        match find_group name (w_groups w) with
        | Some g =>
            mkWorld (map (fun x => if same (g_name x) name then set_status (check g (w_spus w)) x else x) (w_groups w))
                    (w_spus w) (w_uid w) (if status_eqb (g_status g) (check g (w_spus w)) then pending else name :: pending) (w_flight w)
        | None => mkWorld (w_groups w) (w_spus w) (w_uid w) pending (w_flight w)
        end
      else w
  | Sync => mkWorld (w_groups w) (sync_spu (w_groups w) (w_spus w)) (w_uid w) (w_pending w) (w_flight w)
  | Validate name id =>
      if free name id (w_spus w) then mkWorld (w_groups w) (w_spus w) (w_uid w) (w_pending w) ((name, id) :: w_flight w) else w
  | Register name id =>
      (* register_custom_spus_req.rs:102-127 *)
      if existsb (fun f => same (fst f) name && (snd f =? id)) (w_flight w) then
        mkWorld (w_groups w) (put (mkSpu name id true None None) (w_spus w)) (w_uid w) (w_pending w)
                (filter (fun f => negb (same (fst f) name && (snd f =? id))) (w_flight w))
      else w
  | Unregister name =>
      (* unregister_custom_spus_req.rs:92-118: custom SPUs only *)
      mkWorld (w_groups w) (filter (fun s => negb (same (s_name s) name && s_custom s)) (w_spus w)) (w_uid w) (w_pending w) (w_flight w)
  | Health id up => mkWorld (w_groups w) (map (report id up) (w_spus w)) (w_uid w) (w_pending w) (w_flight w)
  | Restart =>
      (* the initial sync of the controllers; requests under way are lost *)
      mkWorld (w_groups w) (w_spus w) (w_uid w) (map g_name (w_groups w)) []
  end.

(** [handle_create_spu_group_request], spg/create.rs:24-60: [dry_run] of the
    request is not looked at *)
Definition create_group (dry_run : bool) (name : bytes) (replicas min : Z) (w : world) : world := step w (CreateGroup name replicas min).

Definition run (w : world) (l : list event) : world := fold_left step l w.
Definition start : world := mkWorld [] [] 0 [] [].

(** * Pods *)

(** "fluvio-spg-" *)
Definition prefix : bytes := [102; 108; 117; 118; 105; 111; 45; 115; 112; 103; 45].
(** "main" *)
Definition main_name : bytes := [109; 97; 105; 110].

(** the names Kubernetes gives: the stateful set is called "fluvio-spg-group"
    (spg_group.rs:75), and its pods after it with their index *)
Definition pod_name (g : group) (i : Z) : bytes := print_replica (prefix ++ g_name g) i.

(** [find_spu_id_from_env] in a pod, cli.rs:203-240: SPU_INDEX is the name of the
    pod, SPU_MIN is the first id of the group (spg_group.rs:229-232), here as a
    number. A token after the last dash has no sign '-' *)
Definition id_from_env (spu_index : bytes) (spu_min : Z) : option Z :=
  match split_last 45 spu_index with
  | None => None
  | Some (_, token) => match parse_unsigned (2 ^ 31 - 1) token with Some n => Some (wrap_s 32 (n + spu_min)) | None => None end
  end.

(** the first two labels of the address of a pod: "pod.service", the service is
    called "fluvio-spg-group" (spg_group.rs:41, 351) *)
Definition pod_host (g : group) (i : Z) : bytes := pod_name g i ++ [46] ++ prefix ++ g_name g.
(** those of the private address in the SPU's specification, spg_group.rs:122-125 *)
Definition private_host (g : group) (i : Z) : bytes := print_replica (prefix ++ main_name) i ++ [46] ++ prefix ++ g_name g.
