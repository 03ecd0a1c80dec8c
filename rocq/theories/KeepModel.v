(** Consumer offsets kept by a cluster: the SPU that leads the topic
    "consumer-offset" keeps them, the others send it what is committed to them.
    Source: fluvio-spu/src/services/public/consumer_handler.rs,
    services/internal/{update,fetch}_consumer_offset_handler.rs, kv/consumer.rs,
    core/global_context.rs and core/store.rs.

    Simplifications, for the whole file:
    - ids of replicas, of consumers and of SPUs are numbers: only equality is used;
      times are left out;
    - the storage of the offsets (log.rs, leader/kv.rs) is a log of puts and deletes;
      checkpoints and crashes in the middle of a write are KvModel's.  Everything
      in the log counts as committed, as it does for the topic the SC creates,
      which has one replica (controllers/topics/controller.rs:218);
    - a change of the leader of "consumer-offset" happens at once for all SPUs, and
      the new leader has the log of the old one (C64, C65 say how far that holds);
    - requests are handled one after the other. *)
From Verif Require Import Base.
Require Import List. Import ListNotations.

(** [ConsumerOffsetKey], kv/consumer.rs:32-36: replica and consumer *)
Definition key := (Z * Z)%type.
Definition key_eq (a b : key) : bool := (fst a =? fst b) && (snd a =? snd b).
Definition table := list (key * Z).
Fixpoint lookup (k : key) (t : table) : option Z :=
  match t with [] => None | (x, v) :: t' => if key_eq x k then Some v else lookup k t' end.
Definition erase (k : key) (t : table) : table := filter (fun e => negb (key_eq (fst e) k)) t.
Definition insert (k : key) (v : Z) (t : table) : table := (k, v) :: erase k t.

(** [Entry], kv-storage/src/log.rs:130-139 *)
Inductive op := Put (k : key) (v : Z) | Del (k : key).
Definition apply_op (t : table) (o : op) : table := match o with Put k v => insert k v t | Del k => erase k t end.
(** [replay], log.rs:98-127 *)
Definition replay (l : list op) : table := fold_left apply_op l [].

(** [Replica], of which only whether it is being deleted and that it may differ
    otherwise *)
Record rspec := mkRspec { r_deleted : bool; r_rest : Z }.
Definition rspec_eq (a b : rspec) : bool := Bool.eqb (r_deleted a) (r_deleted b) && (r_rest a =? r_rest b).

(** An SPU: its local store of replicas; under which opening of its storage it leads
    "consumer-offset", if it does; and the entry of [SharedConsumerOffsetStorages]
    (kv/consumer.rs:24-27) for that topic: the opening it was made for, with the
    table in memory.  Entries are never removed. *)
Record spu := mkSpu { p_store : list (Z * rspec); p_term : option Z; p_held : option (Z * table) }.
(** A stream on a connection: the SPU, the replica, the consumer if it has an id
    ([StreamPublisher], stream_fetch.rs:619-630).  It is kept until the connection
    ends: nothing takes one out of the map, 638-675. *)
Record session := mkSession { n_spu : Z; n_replica : Z; n_consumer : option Z }.

(** What happened, newest first: what was stored and removed. *)
Inductive event := Stored (k : key) (v : Z) | Removed (k : key) | Gone (r : Z).
Record sys := mkSys { y_spu : Z -> spu; y_log : list op; y_next : Z; y_sessions : list (Z * session); y_hist : list event }.

Definition set_spu (i : Z) (x : spu) (s : sys) : sys :=
  mkSys (fun j => if j =? i then x else y_spu s j) (y_log s) (y_next s) (y_sessions s) (y_hist s).
Definition note (e : event) (s : sys) : sys := mkSys (y_spu s) (y_log s) (y_next s) (y_sessions s) (e :: y_hist s).
Definition append (l : list op) (s : sys) : sys := mkSys (y_spu s) (y_log s ++ l) (y_next s) (y_sessions s) (y_hist s).

(** [get_or_insert], kv/consumer.rs:53-69, on an SPU that leads *)
Definition opened (i : Z) (s : sys) : option (Z * table) :=
  match p_term (y_spu s i) with
  | None => None
  | Some o => match p_held (y_spu s i) with
              | Some h => Some h
              | None => Some (o, replay (y_log s))
              end
  end.
Definition hold (i : Z) (h : Z * table) (s : sys) : sys :=
  set_spu i (mkSpu (p_store (y_spu s i)) (p_term (y_spu s i)) (Some h)) s.
(** A write through an opening that is no longer the one the SPU leads with does not
    reach the log the SPU reads and replicates.  What it does to the files is not
    modelled. *)
Definition current (i : Z) (h : Z * table) (s : sys) : bool :=
  match p_term (y_spu s i) with Some o => o =? fst h | None => false end.
Definition write (i : Z) (h : Z * table) (l : list op) (s : sys) : sys := if current i h s then append l s else s.

(** [put], log.rs:48-59: the log first.  [ok]: the log took it. *)
Definition put_at (i : Z) (ok : bool) (k : key) (v : Z) (s : sys) : option (sys * bool) :=
  match opened i s with
  | None => None
  | Some h =>
      if ok
      then Some (note (Stored k v) (write i h [Put k v] (hold i (fst h, insert k v (snd h)) s)), true)
      else Some (hold i h s, false)
  end.
(** [delete], log.rs:41-46: the table first. *)
Definition delete_at (i : Z) (ok : bool) (k : key) (s : sys) : option (sys * bool) :=
  match opened i s with
  | None => None
  | Some h =>
      let s' := hold i (fst h, erase k (snd h)) s in
      if ok then Some (note (Removed k) (write i h [Del k] s'), true) else Some (s', false)
  end.
(** [delete_by_replica_key], kv/consumer.rs:172-195: [n] deletes succeed, the next one
    fails and ends it; [None]: all succeed.  (A flush that fails after a delete,
    111, ends it as well, with that delete in the log; left out.) *)
Definition keys_of (r : Z) (t : table) : list key := map fst (filter (fun e => fst (fst e) =? r) t).
Definition erase_all (l : list key) (t : table) : table := fold_left (fun t k => erase k t) l t.
Definition drop_at (i : Z) (n : option nat) (r : Z) (s : sys) : sys :=
  match opened i s with
  | None => s      (* [delete_consumers_offset], global_context.rs:493-497: not the leader *)
  | Some h =>
      let ks := keys_of r (snd h) in
      match n with
      | Some m =>
          if Nat.ltb m (length ks)
          then write i h (map Del (firstn m ks)) (hold i (fst h, erase_all (firstn (S m) ks) (snd h)) s)
          else note (Gone r) (write i h (map Del ks) (hold i (fst h, erase_all ks (snd h)) s))
      | None => note (Gone r) (write i h (map Del ks) (hold i (fst h, erase_all ks (snd h)) s))
      end
  end.

(** * The public API *)
Inductive answer := Done (v : Z) | NoSession | NoConsumer | NotLeader | Failed.

Fixpoint find_session (n : Z) (l : list (Z * session)) : option session :=
  match l with [] => None | (x, y) :: t => if x =? n then Some y else find_session n t end.
(** [handle_update], consumer_handler.rs:108-159.  [to]: the SPU that is found, and
    reached, as the leader of "consumer-offset" if this one is not
    ([send_private_request_to_leader], public/mod.rs:228-256); [lost]: its answer is
    lost, or the flush after the put fails (kv/consumer.rs:125).  The offset is not looked at, nor whether the replica still exists. *)
Definition commit (n v : Z) (to : option Z) (ok lost : bool) (s : sys) : sys * answer :=
  match find_session n (y_sessions s) with
  | None => (s, NoSession)
  | Some x =>
      match n_consumer x with
      | None => (s, NoConsumer)
      | Some c =>
          let k := (n_replica x, c) in
          match p_term (y_spu s (n_spu x)) with
          | Some _ => match put_at (n_spu x) ok k v s with
                      | Some (s', true) => (s', if lost then Failed else Done v)
                      | Some (s', false) => (s', Failed)
                      | None => (s, Failed)
                      end
          | None =>
              match to with
              | None => (s, Failed)
              | Some j => match put_at j ok k v s with
                          | Some (s', true) => (s', if lost then Failed else Done v)
                          | Some (s', false) => (s', Failed)
                          | None => (s, NotLeader)
                          end
              end
          end
      end
  end.
(** [handle_delete], consumer_handler.rs:161-181; [lost] as above, kv/consumer.rs:111 *)
Definition remove (i : Z) (ok lost : bool) (k : key) (s : sys) : sys * answer :=
  match delete_at i ok k s with
  | Some (s', true) => (s', if lost then Failed else Done 0)
  | Some (s', false) => (s', Failed)
  | None => (s, NotLeader)
  end.
(** [handle_fetch_consumers], consumer_handler.rs:183-234 *)
Definition opt_is (o : option Z) (x : Z) : bool := match o with Some y => y =? x | None => true end.
Definition contains (r : Z) (l : list (Z * rspec)) : bool := existsb (fun e => fst e =? r) l.
Definition fetch (i : Z) (by_replica by_consumer : option Z) (s : sys) : sys * option table :=
  match opened i s with
  | None => (s, None)
  | Some h => (hold i h s,
               Some (filter (fun e => opt_is by_replica (fst (fst e)) && opt_is by_consumer (snd (fst e))
                                      && contains (fst (fst e)) (p_store (y_spu s i))) (snd h)))
  end.

(** * Metadata *)

(** The local store, core/store.rs:49, 98-105: a map *)
Fixpoint find_spec (r : Z) (l : list (Z * rspec)) : option rspec :=
  match l with [] => None | (x, y) :: t => if x =? r then Some y else find_spec r t end.
Definition erase_spec (r : Z) (l : list (Z * rspec)) : list (Z * rspec) := filter (fun e => negb (fst e =? r)) l.
Definition insert_spec (r : Z) (y : rspec) (l : list (Z * rspec)) : list (Z * rspec) := (r, y) :: erase_spec r l.
(** What the SC sends, private_server.rs:430-498: everything, or updates and deletes *)
Inductive message := All (l : list (Z * rspec)) | Changes (l : list (bool * (Z * rspec))).
(** An update, and whether the replica is to be removed because of it:
    store.rs:158-169, 210-220 and global_context.rs:305-307, 339-341 *)
Definition update (r : Z) (y : rspec) (st : list (Z * rspec)) : list (Z * rspec) * list Z :=
  (insert_spec r y st,
   match find_spec r st with
   | Some x => if rspec_eq x y then [] else if r_deleted y then [r] else []
   | None => if r_deleted y then [r] else []
   end).
(** [sync_all], store.rs:143-193.  The replicas that are left are removed at the end. *)
Fixpoint updates (l : list (Z * rspec)) (st : list (Z * rspec)) : list (Z * rspec) * list Z :=
  match l with
  | [] => (st, [])
  | (r, y) :: t => let (st1, d1) := update r y st in let (st2, d2) := updates t st1 in (st2, d1 ++ d2)
  end.
Definition sync_all (l : list (Z * rspec)) (st : list (Z * rspec)) : list (Z * rspec) * list Z :=
  let (st1, d) := updates l st in
  let left := filter (fun r => negb (contains r l)) (map fst st) in
  (filter (fun e => contains (fst e) l) st1, d ++ left).
(** [apply_changes], store.rs:197-245 *)
Fixpoint changes (l : list (bool * (Z * rspec))) (st : list (Z * rspec)) : list (Z * rspec) * list Z :=
  match l with
  | [] => (st, [])
  | (true, (r, y)) :: t => let (st1, d1) := update r y st in let (st2, d2) := changes t st1 in (st2, d1 ++ d2)
  | (false, (r, _)) :: t =>
      let d1 := match find_spec r st with Some _ => [r] | None => [] end in
      let (st2, d2) := changes t (erase_spec r st) in (st2, d1 ++ d2)
  end.
(** [apply], store.rs:130-138: a list of everything that is empty is no such list *)
Definition apply_message (m : message) (st : list (Z * rspec)) : list (Z * rspec) * list Z :=
  match m with
  | All [] => (st, [])
  | All l => sync_all l st
  | Changes l => changes l st
  end.
(** [apply_replica_update], global_context.rs:272-281, and [remove_replica], 379-391,
    of the replicas other than that of "consumer-offset" *)
Definition receive (i : Z) (m : message) (fails : list (option nat)) (s : sys) : sys :=
  let (st, gone) := apply_message m (p_store (y_spu s i)) in
  let s1 := set_spu i (mkSpu st (p_term (y_spu s i)) (p_held (y_spu s i))) s in
  fst (fold_left (fun (a : sys * list (option nat)) r => (drop_at i (hd None (snd a)) r (fst a), tl (snd a))) gone (s1, fails)).

(** * The cluster *)
Inductive move :=
  | Open (n i r : Z) (c : option Z)                       (* a stream is opened *)
  | Close (n : Z)                                          (* its connection ends *)
  | Commit (n v : Z) (to : option Z) (ok lost : bool)
  | Remove (i : Z) (ok lost : bool) (k : key)
  | Fetch (i : Z) (by_replica by_consumer : option Z)
  | Receive (i : Z) (m : message) (fails : list (option nat))
  | Lead (i : Z)                                           (* [i] becomes the leader of "consumer-offset" *)
  | Restart (i : Z).
Definition clear_term (x : spu) : spu := mkSpu (p_store x) None (p_held x).
Definition step (s : sys) (m : move) : option sys :=
  match m with
  | Open n i r c => match find_session n (y_sessions s) with
                    | Some _ => None
                    | None => Some (mkSys (y_spu s) (y_log s) (y_next s) ((n, mkSession i r c) :: y_sessions s) (y_hist s))
                    end
  | Close n => Some (mkSys (y_spu s) (y_log s) (y_next s) (filter (fun e => negb (fst e =? n)) (y_sessions s)) (y_hist s))
  | Commit n v to ok lost => Some (fst (commit n v to ok lost s))
  | Remove i ok lost k => Some (fst (remove i ok lost k s))
  | Fetch i a b => Some (fst (fetch i a b s))
  | Receive i m' fails => Some (receive i m' fails s)
  | Lead i =>
      match p_term (y_spu s i) with
      | Some _ => None
      | None => Some (mkSys (fun j => if j =? i then mkSpu (p_store (y_spu s i)) (Some (y_next s)) (p_held (y_spu s i)) else clear_term (y_spu s j))
                            (y_log s) (y_next s + 1) (y_sessions s) (y_hist s))
      end
  | Restart i =>
      (* the process starts with nothing; its connections are gone *)
      Some (mkSys (fun j => if j =? i then mkSpu [] None None else y_spu s j) (y_log s) (y_next s)
                  (filter (fun e => negb (n_spu (snd e) =? i)) (y_sessions s)) (y_hist s))
  end.
Fixpoint run (s : sys) (l : list move) : option sys :=
  match l with [] => Some s | m :: t => match step s m with Some s' => run s' t | None => None end end.
Definition start : sys := mkSys (fun _ => mkSpu [] None None) [] 0 [] [].
