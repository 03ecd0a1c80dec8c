(** What the controller properties say, independently of how the controller computes. *)
From Verif Require Import Base.
From Verif Require Import ControlModel.

(** number of partitions led by server [s] *)
Definition leader_count (parts : list pspec) (s : Z) : Z :=
  zlen (filter (fun p => ps_leader p =? s) parts).

(** number of partitions for which [s] is a replica other than the leader *)
Definition follower_count (parts : list pspec) (s : Z) : Z :=
  zlen (filter (fun r => r =? s)
         (flat_map (fun p => filter (fun r => negb (r =? ps_leader p)) (ps_replicas p)) parts)).

(** indices 0 .. n-1 *)
Definition indices (n : Z) : list Z := map Z.of_nat (seq 0 (Z.to_nat n)).

(** partition [i] already has a placement with [rf] replicas *)
Definition already_placed (old : rmap) (rf i : Z) (rs : list Z) : Prop :=
  mget i old = Some rs /\ zlen rs = rf.

Definition fresh_placement (online : list Z) (rf : Z) (rs : list Z) : Prop :=
  zlen rs = rf /\ NoDup rs /\ incl rs online.

(** a complete, valid placement of a topic *)
Definition valid_placement (online : list Z) (count rf : Z) (old m : rmap) : Prop :=
  map fst m = indices count /\
  forall i rs, In (i, rs) m ->
    already_placed old rf i rs \/
    ((forall rs', ~ already_placed old rf i rs') /\ fresh_placement online rf rs).

(** the load stays below what a 16-bit counter can hold *)
Definition light_load (parts : list pspec) (online : list Z) (count : Z) : Prop :=
  forall s, In s online ->
    leader_count parts s + count < 65535 /\ follower_count parts s + count < 65535.

(** new leaders that the entries [m] put on server [s] *)
Definition new_leaders (old : rmap) (rf : Z) (m : rmap) (s : Z) : Z :=
  zlen (filter (fun e => match kept old rf (fst e) with Some _ => false | None => hd 0 (snd e) =? s end) m).

(** ** Election *)

Definition lag (leader r : rstatus) : Z := r_leo leader - r_leo r.

(** offsets as servers report them: unknown (-1) or a log position *)
Definition sane (s : pstatus) : Prop :=
  -1 <= r_leo (st_leader s) < 2 ^ 62 /\ Forall (fun r => -1 <= r_leo r < 2 ^ 62) (st_replicas s).

Definition eligible (online : Z -> bool) (s : pstatus) (r : rstatus) : Prop :=
  In r (st_replicas s) /\ online (r_spu r) = true /\ lag (st_leader s) r < 4.

(** every known replica has reached the committed offset of the leader *)
Definition consistent (s : pstatus) : Prop :=
  Forall (fun r => r_hw (st_leader s) <= r_leo r) (st_replicas s).

(** one entry per server *)
Definition unique_servers (s : pstatus) : Prop :=
  NoDup (r_spu (st_leader s) :: map r_spu (st_replicas s)).

(** a report by a leader that knows the position of every follower; what is committed has been
    reached by every follower (C25) *)
Definition complete_report (known : list Z) (o : pstatus) : Prop :=
  r_spu (st_leader o) <> -1 /\ r_hw (st_leader o) <> -1 /\
  NoDup (map r_spu (st_replicas o)) /\
  Forall (fun r => r_spu r <> -1 /\ r_leo r <> -1 /\ r_hw (st_leader o) <= r_leo r) (st_replicas o) /\
  incl known (r_spu (st_leader o) :: map r_spu (st_replicas o)).

Definition servers (s : pstatus) : list Z := r_spu (st_leader s) :: map r_spu (st_replicas s).

(** ** Manual assignments *)
Definition assignment_ok (l : list pmap) : Prop :=
  l <> [] /\ map fst l = indices (zlen l) /\
  (exists k, 0 < k /\ Forall (fun e => zlen (snd e) = k) l) /\
  Forall (fun e => NoDup (snd e) /\ Forall (fun s => 0 <= s) (snd e)) l.

(** ** Topics *)
Definition valid_spec (r : rspec) : Prop :=
  match r with
  | Computed count rf => 0 < count < 2 ^ 32 /\ 0 < rf < 2 ^ 32
  | Assigned maps => assignment_ok maps
  | Mirror _ valid => valid = true
  end.

(** sizes fit the integer types of the fields *)
Definition spec_range (r : rspec) : Prop :=
  match r with
  | Computed count rf => 0 <= count < 2 ^ 32 /\ 0 <= rf < 2 ^ 32
  | Assigned maps => zlen maps < 2 ^ 32
  | Mirror count _ => 0 <= count < 2 ^ 32
  end.

(** total number of partitions the events add *)
Fixpoint added (es : list tevent) : Z :=
  match es with
  | [] => 0
  | AddPartitions n :: t => n + added t
  | _ :: t => added t
  end.
Definition adds_ok (es : list tevent) (r : rspec) : Prop :=
  Forall (fun e => match e with AddPartitions n => 0 <= n | _ => True end) es /\
  match r with Computed count _ => count + added es < 2 ^ 32 | _ => True end.

(** enough servers and load room to place [count] partitions with [rf] replicas *)
Definition enough_servers (c : cluster) (count rf : Z) : Prop :=
  NoDup (spu_ids (c_spus c)) /\ zlen (c_spus c) < 2 ^ 32 /\
  rf <= zlen (online_ids (c_spus c)) /\
  light_load (all_parts c) (online_ids (c_spus c)) count.

(** every placed partition exists in the store with its placement, led by its first replica *)
Definition all_created (t : topic) (c : cluster) : Prop :=
  forall i rs, In (i, rs) (t_map t) ->
    exists sp, In (i, sp) (c_store c) /\ ps_replicas sp = rs /\ ps_leader sp = hd 0 rs.

Fixpoint passes (n : nat) : list tevent := match n with O => [] | S k => Pass :: passes k end.

(** every server named in the assignment exists *)
Definition known_servers (maps : list pmap) (c : cluster) : Prop :=
  Forall (fun e => incl (snd e) (spu_ids (c_spus c))) maps.
