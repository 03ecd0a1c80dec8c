(** What the counters should count. *)
From Coq Require Import ZArith List Bool.
Import ListNotations.
From Verif Require Import Base MeterModel.
Open Scope Z_scope.

Definition side (k : bool) (a : activity) : count := if k then a_connector a else a_client a.
(** records and bytes stored for connectors ([k] true) or other clients *)
Definition stored (k : bool) (e : event) : Z := match e with Write _ k' n _ => if Bool.eqb k k' then n else 0 | _ => 0 end.
Definition stored_bytes (k : bool) (e : event) : Z := match e with Write _ k' _ b => if Bool.eqb k k' then b else 0 | _ => 0 end.
Definition stored_on (p : Z) (e : event) : Z := match e with Write p' _ n _ => if p =? p' then n else 0 | _ => 0 end.
(** records and bytes sent to them *)
Definition sent (k : bool) (e : event) : Z :=
  match e with
  | Fetch _ k' d (Some _) => if Bool.eqb k k' then d else 0
  | Stream _ k' d _ => if Bool.eqb k k' then d else 0
  | Process k' _ l => if Bool.eqb k k' then Z.of_nat (length l) else 0
  | _ => 0
  end.
Definition sent_bytes (k : bool) (e : event) : Z :=
  match e with
  | Fetch _ k' _ (Some len) => if Bool.eqb k k' then len else 0
  | Stream _ k' _ len => if Bool.eqb k k' then len else 0
  | Process k' _ l => if Bool.eqb k k' then total (map (fun r => fst r + snd r) l) else 0
  | _ => 0
  end.
Definition over (f : event -> Z) (l : list event) : Z := total (map f l).
(** every write has something left to store; nothing is sent as it is in the file *)
Definition keeps (e : event) : Prop := match e with Write _ _ n b => 0 < n < 2 ^ 64 /\ 0 <= b < 2 ^ 64 | _ => True end.
Definition through_modules (e : event) : Prop := match e with Fetch _ _ _ (Some _) => False | Stream _ _ _ len => len = 0 | _ => True end.
(** calls of the module [x] in chains whose batch was sent *)
Definition calls_of (x : Z) (c : chain) : list call := flat_map (fun i => if x =? fst i then snd i else []) c.
Definition calls_in (x : Z) (e : event) : list call := match e with Process _ c _ => calls_of x c | _ => [] end.
Definition all_calls (x : Z) (l : list event) : list call := flat_map (calls_in x) l.
Definition shown (t : Z -> option load) (x : Z) : load := match t x with Some m => m | None => no_load end.
Definition named (x : Z) (e : event) : Prop := match e with Process _ c _ => In x (map fst c) | _ => False end.
(** an SPU that has just started *)
Definition fresh (t : Z -> plog) : spu := mkSpu t (mkAct (mkCount 0 0) (mkCount 0 0)) (mkAct (mkCount 0 0) (mkCount 0 0)) (fun _ => None).
(** an empty slice has no records *)
Definition honest (e : event) : Prop := match e with Stream _ _ d len => len = 0 -> d = 0 | _ => True end.
(** time of an instance for a batch: a millisecond at least *)
Definition instance_ms (l : list call) : Z := Z.max (u64 (total (map (fun c => Z.max (k_ms c) 1) l))) 1.
(** counters are 64 bit numbers *)
Definition counter (x : Z) : Prop := u64 x = x.
Definition good (s : spu) : Prop := forall k, counter (c_records (side k (s_in s))) /\ counter (c_bytes (side k (s_in s))) /\
  counter (c_records (side k (s_out s))) /\ counter (c_bytes (side k (s_out s))).
