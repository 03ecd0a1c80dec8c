(** How the state of a leader gets into the status the controller shows.

    After every write and after every progress of a follower the leader puts a report
    into a set that has one report per partition; every 400 ms the set is emptied and
    sent to the controller, which merges each report into the status of its partition.

    Simplifications: one server; the reports of one message are handled in the order in
    which they were put (the set is a HashSet; reports of different partitions do not
    affect each other); a report that is being made when the server stops to lead is
    dropped. *)
From Verif Require Import Base ControlModel.

(** fluvio-spu/src/replication/leader/replica_state.rs 47-58: what a report reads *)
Record lead_info := {
  li_me : Z;                      (** the leader's own id *)
  li_hw : Z; li_leo : Z;
  li_followers : list rstatus;    (** in the order of the BTreeMap *)
  li_size : Z; li_base : Z }.

(** fluvio-controlplane/src/sc_api/update_lrs.rs 60-68 [LrsRequest]; the id is kept beside it *)
Record lrs := { lr_leader : rstatus; lr_replicas : list rstatus; lr_size : Z; lr_base : Z }.

(** fluvio-controlplane-metadata/src/partition/status.rs 26-44; [is_being_deleted] is left out *)
Record shown := { sh_part : pstatus; sh_size : Z; sh_base : Z }.

(** status.rs 46-58 with 194-202: the default *)
Definition new_shown : shown :=
  {| sh_part := {| st_res := POffline; st_leader := {| r_spu := -1; r_hw := -1; r_leo := -1 |}; st_lsr := 0; st_replicas := [] |};
     sh_size := -2; sh_base := 0 |}.

(** replica_state.rs 332-342 [update_status] with 311-330 [as_lrs_request]: a task that
    has read nothing, the leader's offsets, the followers, the storage.  The two offsets
    are read at once here. *)
Inductive stage :=
| T0
| T1 (leader : rstatus)
| T2 (leader : rstatus) (followers : list rstatus)
| T3 (r : lrs).

Definition advance (i : lead_info) (t : stage) : stage :=
  match t with
  | T0 => T1 {| r_spu := li_me i; r_hw := li_hw i; r_leo := li_leo i |}
  | T1 l => T2 l (li_followers i)
  | T2 l f => T3 {| lr_leader := l; lr_replicas := f; lr_size := li_size i; lr_base := li_base i |}
  | T3 r => T3 r
  end.

(** fluvio-spu/src/control_plane/message_sink.rs 33-36 [send]: [HashSet::replace], equal
    means the same id (update_lrs.rs 70-83) *)
Definition replace (k : Z) (r : lrs) (l : list (Z * lrs)) : list (Z * lrs) :=
  filter (fun e => negb (fst e =? k)) l ++ [(k, r)].

(** fluvio-sc/src/services/private_api/private_server.rs 240-246 [PartitionStatus::new2] *)
Definition as_status_of (r : lrs) : shown :=
  {| sh_part := {| st_res := POnline; st_leader := lr_leader r; st_lsr := 0; st_replicas := lr_replicas r |};
     sh_size := lr_size r; sh_base := lr_base r |}.

(** fluvio-sc/src/stores/partition/store.rs 390-418 [merge]: resolution, size, leader,
    replicas and their count *)
Definition merge_shown (self other : shown) : shown :=
  {| sh_part := ps_merge (sh_part self) (sh_part other); sh_size := sh_size other; sh_base := sh_base self |}.

Definition look {A} (k : Z) (l : list (Z * A)) : option A := option_map snd (find (fun e => fst e =? k) l).

(** private_server.rs 235-257: one unknown partition ends the loop before anything is sent *)
Fixpoint merge_all (store : list (Z * shown)) (msg : list (Z * lrs)) : option (list (Z * shown)) :=
  match msg with
  | [] => Some []
  | (k, r) :: t =>
    match look k store with
    | None => None
    | Some sh => option_map (cons (k, merge_shown sh (as_status_of r))) (merge_all store t)
    end
  end.

Definition set_in {A} (k : Z) (a : A) (l : list (Z * A)) : list (Z * A) :=
  map (fun e => if fst e =? k then (k, a) else e) l.

Record reps := mkM {
  m_lead : list (Z * lead_info);             (** the partitions the server leads *)
  m_tasks : list (Z * stage);                (** reports being made *)
  m_sink : list (Z * lrs);                   (** message_sink.rs 18 *)
  m_wire : option (list (list (Z * lrs)));   (** on the way to the controller; [None]: no connection *)
  m_store : list (Z * shown);                (** the controller's partitions *)
  m_marks : list (Z * shown);                (** statuses the controller has copied to change their resolution *)
  m_queue : list (Z * shown) }.              (** sent to the dispatcher of the partitions, not applied *)

Definition nothing : reps := mkM [] [] [] None [] [] [].

Inductive rep_act :=
| MNew (k : Z)                   (** the controller makes a partition *)
| MDrop (k : Z)                  (** the controller deletes one *)
| MLead (k : Z) (i : lead_info)  (** the server becomes leader: replica_state.rs 147-162 [create] *)
| MStop (k : Z)                  (** it stops to lead *)
| MChange (k : Z) (i : lead_info)    (** a write (345-366) or progress of a follower (185-240) *)
| MClean (k size base : Z)       (** retention: fluvio-storage/src/cleaner.rs 60-130 *)
| MTask (n : nat)                (** task [n] reads on or puts its report *)
| MTick                          (** fluvio-spu/src/control_plane/dispatcher.rs 143-144, 196-205: the set is emptied and sent *)
| MLost                          (** the same, and sending fails: the connection is given up (108-112) *)
| MBreak                         (** the connection breaks; what is on the way is lost *)
| MConnect                       (** dispatcher.rs 76-95; nothing is sent again *)
| MReceive                       (** private_server.rs 222-266 *)
| MMark (k : Z) (r : presolution)    (** the controller copies a status and changes the resolution:
                                     partitions/reducer.rs 180-187, 245-251, private_server.rs 360-367 *)
| MSendMark                      (** and sends it: partitions/controller.rs 146-149, private_server.rs 377-379 *)
| MApply                         (** the dispatcher writes the next status *)
| MRestart                       (** the server restarts *)
| MScRestart.                    (** the controller restarts; the statuses are stored *)

Definition mstep (s : reps) (a : rep_act) : option reps :=
  let '(mkM lead tasks sink wire store marks queue) := s in
  match a with
  | MNew k => match look k store with
              | Some _ => None
              | None => Some (mkM lead tasks sink wire (store ++ [(k, new_shown)]) marks queue)
              end
  | MDrop k => Some (mkM lead tasks sink wire (filter (fun e => negb (fst e =? k)) store) marks queue)
  | MLead k i => match look k lead with
                 | Some _ => None
                 | None => Some (mkM (lead ++ [(k, i)]) (tasks ++ [(k, T0)]) sink wire store marks queue)
                 end
  | MStop k => Some (mkM (filter (fun e => negb (fst e =? k)) lead) tasks sink wire store marks queue)
  | MChange k i => match look k lead with
                   | None => None
                   | Some _ => Some (mkM (set_in k i lead) (tasks ++ [(k, T0)]) sink wire store marks queue)
                   end
  | MClean k size base =>
    match look k lead with
    | None => None
    | Some i => Some (mkM (set_in k {| li_me := li_me i; li_hw := li_hw i; li_leo := li_leo i; li_followers := li_followers i;
                                       li_size := size; li_base := base |} lead) tasks sink wire store marks queue)
    end
  | MTask n =>
    match nth_error tasks n with
    | None => None
    | Some (k, T3 r) => Some (mkM lead (firstn n tasks ++ skipn (S n) tasks) (replace k r sink) wire store marks queue)
    | Some (k, t) =>
      match look k lead with
      | None => Some (mkM lead (firstn n tasks ++ skipn (S n) tasks) sink wire store marks queue)
      | Some i => Some (mkM lead (firstn n tasks ++ (k, advance i t) :: skipn (S n) tasks) sink wire store marks queue)
      end
    end
  | MTick => match wire with
             | None => None
             | Some w => Some (mkM lead tasks [] (Some (w ++ [sink])) store marks queue)
             end
  | MLost => match wire with
             | None => None
             | Some w => Some (mkM lead tasks [] None store marks queue)
             end
  | MBreak => Some (mkM lead tasks sink None store marks queue)
  | MConnect => match wire with
                | Some _ => None
                | None => Some (mkM lead tasks sink (Some []) store marks queue)
                end
  | MReceive =>
    match wire with
    | Some (msg :: w) =>
      Some (mkM lead tasks sink (Some w) store marks
              (queue ++ match merge_all store msg with Some l => l | None => [] end))
    | _ => None
    end
  | MMark k r =>
    match look k store with
    | None => None
    | Some sh => Some (mkM lead tasks sink wire store
                   (marks ++ [(k, {| sh_part := set_resolution (sh_part sh) r; sh_size := sh_size sh; sh_base := sh_base sh |})]) queue)
    end
  | MSendMark => match marks with
                 | [] => None
                 | x :: t => Some (mkM lead tasks sink wire store t (queue ++ [x]))
                 end
  | MApply => match queue with
              | [] => None
              | (k, sh) :: t => Some (mkM lead tasks sink wire (set_in k sh store) marks t)
              end
  | MRestart => Some (mkM [] [] [] None store marks queue)
  | MScRestart => Some (mkM lead tasks sink None store [] [])
  end.

Fixpoint mexec (s : reps) (l : list rep_act) : option reps :=
  match l with
  | [] => Some s
  | a :: t => match mstep s a with Some s' => mexec s' t | None => None end
  end.
