(** The controller's elections over time.

    ControlModel has one election as a function; this file has the loop around it:
    the statuses of servers change (HealthModel says when), the partition controller
    looks at the servers that changed since it last looked, goes through the
    partitions and sends actions to the dispatcher of the partitions, which applies
    them one by one.  Leaders report their offsets meanwhile.

    Simplifications: partitions are not deleted; an action of the dispatcher shows in
    the store when it is applied. *)
From Verif Require Import Base ControlModel HealthModel.

Record elects := mkE {
  e_spus : list (Z * sstatus);   (** the servers in the store, by id *)
  e_changed : list Z;            (** servers whose status is newer than the listener of the partition
                                     controller (fluvio-sc/src/controllers/partitions/controller.rs 64-65) *)
  e_todo : list (Z * sstatus);   (** the servers the running pass has still to look at *)
  e_acc : list eaction;          (** the actions of the running pass that have not been sent *)
  e_queue : list eaction;        (** sent to the dispatcher and not applied *)
  e_parts : list partition }.

(** A new cluster. *)
Definition no_cluster : elects := mkE [] [] [] [] [] [].

(** fluvio-sc/src/stores/spu/store.rs 92-100 [online_status] *)
Definition online_of (l : list (Z * sstatus)) (k : Z) : bool :=
  existsb (fun e => (fst e =? k) && is_up (snd e)) l.

(** What a pass is given: [sync_status_changes] (partitions/controller.rs 126,
    fluvio-stream-model/src/epoch/dual_epoch_map.rs 352-390); deleted servers are
    ignored (controller.rs 133-144). *)
Definition changed_now (s : elects) : list (Z * sstatus) :=
  filter (fun e => zmem (fst e) (e_changed s)) (e_spus s).

Definition status_eqb (a b : sstatus) : bool :=
  match a, b with SInit, SInit | SOnline, SOnline | SOffline, SOffline => true | _, _ => false end.
Definition same_spu (a b : Z * sstatus) : bool := (fst a =? fst b) && status_eqb (snd a) (snd b).
Fixpoint distinct (l : list Z) : bool :=
  match l with [] => true | x :: t => negb (zmem x t) && distinct t end.
(** [l] is a list of the servers [m], in any order (the store is a HashMap). *)
Definition order_of (l m : list (Z * sstatus)) : bool :=
  distinct (map fst l) && forallb (fun e => existsb (same_spu e) m) l &&
  forallb (fun e => existsb (same_spu e) l) m.

(** fluvio-sc/src/controllers/partitions/reducer.rs 115-131: first those that are
    offline, then those that are online; initial ones are left out. *)
Definition is_down (st : sstatus) : bool := match st with SOffline => true | _ => false end.
Definition in_turn (l : list (Z * sstatus)) : list (Z * sstatus) :=
  filter (fun e => is_down (snd e)) l ++ filter (fun e => is_up (snd e)) l.

(** reducer.rs 137-201, 205-258, all partitions; the lock on the partitions is held
    meanwhile, the online servers are read just before (149). *)
Definition elect_for (online : Z -> bool) (e : Z * sstatus) (parts : list partition) : list eaction :=
  match snd e with
  | SOffline => flat_map (elect_off online (fst e)) parts
  | SOnline => flat_map (elect_on (fst e)) parts
  | SInit => []
  end.

(** fluvio-stream-dispatcher/src/dispatcher/metadata.rs 202-246, one partition *)
Definition apply_action (a : eaction) (p : partition) : partition :=
  match a with
  | UpdateSpec k sp => if pt_key p =? k then {| pt_key := pt_key p; pt_spec := sp; pt_status := pt_status p |} else p
  | UpdateStatus k st => if pt_key p =? k then {| pt_key := pt_key p; pt_spec := pt_spec p; pt_status := st |} else p
  end.

(** fluvio-controlplane-metadata/src/partition/status.rs 46-58, 163-165, 194-202: the
    default status *)
Definition new_status : pstatus :=
  {| st_res := POffline; st_leader := {| r_spu := -1; r_hw := -1; r_leo := -1 |}; st_lsr := 0; st_replicas := [] |}.

Inductive elect_act :=
| EAdd (k : Z)                      (** a server is added, status Init *)
| EDelete (k : Z)                   (** a server is removed; nothing checks what it leads
                                        (fluvio-sc/src/services/public_api/spu/unregister_custom_spus_req.rs 86-110) *)
| EStatus (k : Z) (up : bool)       (** the SPU controller's write of a status (HealthModel) *)
| ECreate (k : Z) (sp : pspec)      (** a new partition with the default status *)
| EReport (k : Z) (o : pstatus)     (** a leader's report for one partition
                                        (fluvio-sc/src/services/private_api/private_server.rs 222-266) *)
| EResolution (k : Z) (r : presolution)  (** a server sets the resolution (343-380); it does so when its
                                        storage is full (fluvio-spu/src/services/public/produce_handler.rs 214-222) *)
| EStart (order : list (Z * sstatus))    (** a pass starts: controller.rs 120-137 *)
| EElect                            (** the next server of the pass: reducer.rs 124-131 *)
| ESend                             (** the next action is sent: controller.rs 146-149 *)
| EApply                            (** the dispatcher applies the next action *)
| EResync                           (** the dispatcher of the servers syncs its store with all of them, every five
                                        minutes by default (metadata.rs 27-33, 109-126); that moves the fence of the
                                        store, and what is older than the fence is given all servers
                                        (fluvio-stream-model/src/store/dual_store.rs 267, dual_epoch_map.rs 353-358) *)
| ERestart.                         (** the controller restarts: the servers it finds then are not looked at
                                        (partitions/controller.rs 64-65, dual_store.rs 540-549) *)

Definition find_part (k : Z) (l : list partition) : option partition := find (fun p => pt_key p =? k) l.

Definition estep (s : elects) (a : elect_act) : option elects :=
  match a with
  | EAdd k =>
    if known k (e_spus s) then None
    else Some (mkE (e_spus s ++ [(k, SInit)]) (k :: e_changed s) (e_todo s) (e_acc s) (e_queue s) (e_parts s))
  | EDelete k =>
    Some (mkE (filter (fun e => negb (fst e =? k)) (e_spus s)) (e_changed s) (e_todo s) (e_acc s) (e_queue s) (e_parts s))
  | EStatus k up =>
    match find_spu k (e_spus s) with
    | None => None
    | Some st =>
      if status_eqb st (as_status up) then Some s
      else Some (mkE (set_status k (as_status up) (e_spus s)) (k :: e_changed s) (e_todo s) (e_acc s) (e_queue s) (e_parts s))
    end
  | ECreate k sp =>
    match find_part k (e_parts s) with
    | Some _ => None
    | None => Some (mkE (e_spus s) (e_changed s) (e_todo s) (e_acc s) (e_queue s)
                      (e_parts s ++ [{| pt_key := k; pt_spec := sp; pt_status := new_status |}]))
    end
  | EReport k o =>
    match find_part k (e_parts s) with
    | None => None
    | Some p => Some (mkE (e_spus s) (e_changed s) (e_todo s) (e_acc s)
                        (e_queue s ++ [UpdateStatus k (ps_merge (pt_status p) (set_resolution o POnline))]) (e_parts s))
    end
  | EResolution k r =>
    match find_part k (e_parts s) with
    | None => None
    | Some p => Some (mkE (e_spus s) (e_changed s) (e_todo s) (e_acc s)
                        (e_queue s ++ [UpdateStatus k (set_resolution (pt_status p) r)]) (e_parts s))
    end
  | EStart order =>
    match e_todo s, e_acc s with
    | [], [] => if order_of order (changed_now s)
                then Some (mkE (e_spus s) [] (in_turn order) [] (e_queue s) (e_parts s)) else None
    | _, _ => None
    end
  | EElect =>
    match e_todo s with
    | [] => None
    | e :: t => Some (mkE (e_spus s) (e_changed s) t
                        (e_acc s ++ elect_for (online_of (e_spus s)) e (e_parts s)) (e_queue s) (e_parts s))
    end
  | ESend =>
    match e_todo s, e_acc s with
    | [], x :: t => Some (mkE (e_spus s) (e_changed s) [] t (e_queue s ++ [x]) (e_parts s))
    | _, _ => None
    end
  | EApply =>
    match e_queue s with
    | [] => None
    | x :: t => Some (mkE (e_spus s) (e_changed s) (e_todo s) (e_acc s) t (map (apply_action x) (e_parts s)))
    end
  | EResync => Some (mkE (e_spus s) (map fst (e_spus s)) (e_todo s) (e_acc s) (e_queue s) (e_parts s))
  | ERestart => Some (mkE (e_spus s) [] [] [] [] (e_parts s))
  end.

Fixpoint eexec (s : elects) (l : list elect_act) : option elects :=
  match l with
  | [] => Some s
  | a :: t => match estep s a with Some s' => eexec s' t | None => None end
  end.
