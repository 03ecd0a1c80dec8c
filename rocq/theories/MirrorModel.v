(** Model of mirroring: the log of a partition (the source) is copied to a
    partition of another cluster (the target), which takes no records from
    producers.
    Source: crates/fluvio-spu/src/mirroring/{home/connection,remote/controller}.rs,
    crates/fluvio-spu/src/replication/leader/replica_state.rs.

    The source may be the remote cluster and the target the home cluster, or the
    other way round; in both cases the remote cluster connects to the home
    cluster, and when a connection ends it connects again.

    Simplifications:
    - one source partition and one target partition; both exist and are found
      (find_mirror_home_leader, find_home_cluster), the requests are authorized;
    - a step between two awaits is atomic.  The source reads its own position and
      the records in one step: the position that goes with the records is not
      looked at by the target;
    - no deduplication SmartModule ([transform] is the identity);
    - status updates, backoff and metrics that nothing depends on are left out. *)
From Verif Require Export ReplicationModel.

(** A connection: the record sets under way to the target, the record set that
    the target has checked and is about to store, the positions under way to the
    source. *)
Record link := mkLink { l_syncs : list bytes; l_checked : option (list (batch bytes)); l_offsets : list Z }.

(** [m_known]: what the source takes for the end of the target (home_leo,
    remote_leo; -1: not known).  [m_last]: the last value seen by its offset
    listener.  [m_conn]: the present connection with the flag home_updated_needed
    (remote_updated_needed).  [m_old]: connections that the source has left, and
    whose other end has not noticed yet. *)
Record mirror := mkMirror {
  m_src : replica; m_tgt : replica; m_known : Z; m_last : Z; m_conn : option (bool * link); m_old : list link;
}.

(** [m_max]: 10000000 from remote to home (replica_state.rs 502), 1048576 from
    home to remote (connection.rs 369).  [m_keeps]: the position of the target and
    the offset listener outlive a connection (remote as source, controller.rs
    97-107 and 187; home as source: one handler with its metrics and listener for
    each connection, connection.rs 138-146, 289).  [m_alone]: one task at the
    target handles all connections one after the other (remote as target,
    controller.rs 186-217; home as target: a task for each connection). *)
Record mparams := mkMp {
  m_sconf : config; m_tconf : config; m_sisr : Z; m_tisr : Z; m_max : Z; m_keeps : bool; m_alone : bool;
}.

(** * The source *)

(** update_from_home_as_source (controller.rs 404-449), update_from_remote
    (connection.rs 424-465): the position of the target as known, and whether the
    target needs records; [None]: an error, which ends the connection.  [leo]: the
    end of the source. *)
Definition note_offset (known leo new : Z) : Z * option bool :=
  let known1 := if known <? 0 then new else known in
  match new ?= leo with
  | Gt => (known1, None)
  | Lt => (new, Some true)
  | Eq => (known1, Some false)
  end.

(** geneate_remote_record_as_source (controller.rs 483-539),
    generate_home_records_as_source (connection.rs 364-422). *)
Inductive made := Nothing | Records (b : bytes) | Broken.
Definition make_sync (max : Z) (r : replica) (known : Z) : made :=
  if get_leo r =? known then Nothing
  else if known <? get_leo r then
    match read_partition_slice r known max ReadUncommitted with
    | Done sl => Records (match sl_bytes sl with Some b => b | None => [] end)
    | Fail _ => Broken
    end
  else Broken.

(** The loop sends before it waits again (controller.rs 249-261, connection.rs
    292-304). *)
Definition must_push (s : mirror) (needed : bool) : bool := needed && (0 <=? m_known s).

(** * The target *)

(** append_record_set (replica_state.rs 446-464) up to the write, which is
    write_record_set ([leader_write]).  Between the two the task waits for the
    lock of the storage. *)
Definition aligned (r : replica) (l : list (batch bytes)) : bool :=
  negb (total_records l =? 0) && (rset_base_offset l =? get_leo r).

(** sync_record_from_remote (connection.rs 263-275); sync_record_from_home and
    send_offsets_to_home_as_target (controller.rs 349-358): take the next message,
    decode and check it; if there is nothing to store, answer with the position. *)
Definition check_link (r : replica) (k : link) : option link :=
  match l_syncs k, l_checked k with
  | b :: t, None =>
      let l := receive b in
      if aligned r l then Some (mkLink t (Some l) (l_offsets k))
      else Some (mkLink t None (l_offsets k ++ [get_leo r]))
  | _, _ => None
  end.
(** The write; then the answer.  An error ends the task. *)
Definition store_link (c : config) (isr now : Z) (r : replica) (k : link) : option (replica * option link) :=
  match l_checked k with
  | None => None
  | Some l =>
      match leader_write c now isr r l with
      | (r', None) => Some (r', Some (mkLink (l_syncs k) None (l_offsets k ++ [get_leo r'])))
      | (r', Some _) => Some (r', None)
      end
  end.

(** * What can happen *)

(** Upkeep of a partition: retention, and the committed offset. *)
Inductive upkeep := BySize | ByAge (now : Z) | Commit (o : Z).
Definition keep_up (c : config) (r : replica) (u : upkeep) : replica :=
  match u with BySize => enforce_size c r | ByAge now => enforce_ttl c now r | Commit o => update_hw r o end.

(** The connection a task of the target handles. *)
Inductive which := Present | Former (i : nat).

Inductive act :=
  | Produce (now : Z) (l : list (batch bytes))   (* records are produced to the source *)
  | SrcUp (u : upkeep) | TgtUp (u : upkeep)
  | SrcRestart (now : Z) (k : ckpt) | TgtRestart (now : Z) (k : ckpt)
  | Connect | Drop | Gone (i : nat)              (* connections begin and end *)
  | Hear                                         (* the listener has a new value *)
  | Stir                                         (* the listener wakes up without one (C48) *)
  | Learn | Push                                 (* the source reads a position; sends records *)
  | Remind                                       (* the timer of the target, once a minute *)
  | Check (w : which) | Store (w : which) (now : Z).

Fixpoint set_nth {A} (i : nat) (x : option A) (l : list A) : list A :=
  match i, l with
  | _, [] => []
  | O, _ :: t => match x with Some a => a :: t | None => t end
  | S j, a :: t => a :: set_nth j x t
  end.
Definition link_of (s : mirror) (w : which) : option link :=
  match w with Present => option_map snd (m_conn s) | Former i => nth_error (m_old s) i end.
(** [None]: the connection is over. *)
Definition set_link (s : mirror) (w : which) (k : option link) : mirror :=
  match w with
  | Present => mkMirror (m_src s) (m_tgt s) (m_known s) (m_last s)
                 (match m_conn s, k with Some (n, _), Some k' => Some (n, k') | _, _ => None end) (m_old s)
  | Former i => mkMirror (m_src s) (m_tgt s) (m_known s) (m_last s) (m_conn s) (set_nth i k (m_old s))
  end.
Definition set_tgt (s : mirror) (r : replica) : mirror := mkMirror (m_src s) r (m_known s) (m_last s) (m_conn s) (m_old s).
Definition set_src (s : mirror) (r : replica) : mirror := mkMirror r (m_tgt s) (m_known s) (m_last s) (m_conn s) (m_old s).
(** The source leaves its connection. *)
Definition leave (s : mirror) : mirror :=
  mkMirror (m_src s) (m_tgt s) (m_known s) (m_last s) None
    (match m_conn s with Some (_, k) => k :: m_old s | None => m_old s end).

Definition mstep (p : mparams) (s : mirror) (a : act) : option mirror :=
  match a with
  | Produce now l => Some (set_src s (fst (leader_write (m_sconf p) now (m_sisr p) (m_src s) l)))
  | SrcUp u => Some (set_src s (keep_up (m_sconf p) (m_src s) u))
  | TgtUp u => Some (set_tgt s (keep_up (m_tconf p) (m_tgt s) u))
  (* a new controller, or new handlers: nothing is known of the target *)
  | SrcRestart now k =>
      match load (m_sconf p) now (disk_of (m_src s) k) with
      | Done r => let s' := leave s in Some (mkMirror r (m_tgt s') (-1) 0 None (m_old s'))
      | Fail _ => None
      end
  (* all tasks of the target end *)
  | TgtRestart now k =>
      match load (m_tconf p) now (disk_of (m_tgt s) k) with
      | Done r => Some (mkMirror (m_src s) r (m_known s) (m_last s) None [])
      | Fail _ => None
      end
  (* the target starts with sending its position: connection.rs 195, controller.rs 325 *)
  | Connect =>
      match m_conn s with
      | Some _ => None
      | None =>
          if m_alone p && match m_old s with [] => false | _ => true end then None
          else Some (mkMirror (m_src s) (m_tgt s) (if m_keeps p then m_known s else -1) (if m_keeps p then m_last s else 0)
                       (Some (false, mkLink [] None [get_leo (m_tgt s)])) (m_old s))
      end
  | Drop => match m_conn s with Some _ => Some (leave s) | None => None end
  (* a task of the target notices the end of its connection, between two messages *)
  | Gone i =>
      match nth_error (m_old s) i with
      | Some (mkLink _ None _) => Some (set_link s (Former i) None)
      | _ => None
      end
  (* controller.rs 263-267, connection.rs 306-310 *)
  | Hear | Stir =>
      match m_conn s with
      | Some (n, k) =>
          if must_push s n then None
          else if match a with Hear => get_leo (m_src s) =? m_last s | _ => false end then None
          else Some (mkMirror (m_src s) (m_tgt s) (m_known s) (get_leo (m_src s)) (Some (true, k)) (m_old s))
      | None => None
      end
  (* controller.rs 269-282, connection.rs 313-324 *)
  | Learn =>
      match m_conn s with
      | Some (n, mkLink sy ch (o :: os)) =>
          if must_push s n then None
          else match note_offset (m_known s) (get_leo (m_src s)) o with
               | (known, Some n') => Some (mkMirror (m_src s) (m_tgt s) known (m_last s) (Some (n', mkLink sy ch os)) (m_old s))
               | (known, None) => Some (leave (mkMirror (m_src s) (m_tgt s) known (m_last s) (m_conn s) (m_old s)))
               end
      | _ => None
      end
  (* controller.rs 255-261, connection.rs 301-304 *)
  | Push =>
      match m_conn s with
      | Some (n, k) =>
          if must_push s n then
            match make_sync (m_max p) (m_src s) (m_known s) with
            | Nothing => Some (mkMirror (m_src s) (m_tgt s) (m_known s) (m_last s) (Some (false, k)) (m_old s))
            | Records b => Some (mkMirror (m_src s) (m_tgt s) (m_known s) (m_last s)
                                   (Some (false, mkLink (l_syncs k ++ [b]) (l_checked k) (l_offsets k))) (m_old s))
            | Broken => Some (leave s)
            end
          else None
      | None => None
      end
  (* connection.rs 209-213, controller.rs 334-338 *)
  | Remind =>
      match m_conn s with
      | Some (n, mkLink sy None os) => Some (set_link s Present (Some (mkLink sy None (os ++ [get_leo (m_tgt s)]))))
      | _ => None
      end
  | Check w =>
      match link_of s w with
      | Some k => match check_link (m_tgt s) k with Some k' => Some (set_link s w (Some k')) | None => None end
      | None => None
      end
  | Store w now =>
      match link_of s w with
      | Some k => match store_link (m_tconf p) (m_tisr p) now (m_tgt s) k with
                  | Some (r, k') => Some (set_link (set_tgt s r) w k')
                  | None => None
                  end
      | None => None
      end
  end.

(** Two new partitions, before the first connection. *)
Definition mirror0 (src tgt : replica) : mirror := mkMirror src tgt (-1) 0 None [].
