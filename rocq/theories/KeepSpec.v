(** What C100 and C101 say: stored consumer offsets of a cluster. *)
Require Import List. Import ListNotations.
From Verif Require Import Base KeepModel.

(** What an event is about: the offset of one consumer of one replica, or all of a replica *)
Definition about (e : event) (k : key) : Prop :=
  match e with Stored k' _ => k' = k | Removed k' => k' = k | Gone r => r = fst k end.
(** The last thing that happened to [k] is that [v] was stored.  Histories have the
    newest event in front. *)
Definition holds (h : list event) (k : key) (v : Z) : Prop :=
  exists a b, h = a ++ Stored k v :: b /\ Forall (fun e => ~ about e k) a.

(** Runs in which no delete fails, and an SPU that kept offsets becomes the leader
    again only after a restart. *)
Definition calm (s : sys) (m : move) : Prop :=
  match m with
  | Lead i => p_held (y_spu s i) = None
  | Remove _ ok _ _ => ok = true
  | Receive _ _ fails => Forall (fun x => x = None) fails
  | _ => True
  end.
Inductive orderly : sys -> list move -> sys -> Prop :=
  | orderly_nil : forall s, orderly s [] s
  | orderly_step : forall s m s1 l s2, calm s m -> step s m = Some s1 -> orderly s1 l s2 -> orderly s (m :: l) s2.

Definition leads (s : sys) (i : Z) : Prop := p_term (y_spu s i) <> None.
(** The SPU has heard of the replica *)
Definition knows (s : sys) (i r : Z) : Prop := In r (map fst (p_store (y_spu s i))).
Definition wanted (o : option Z) (x : Z) : Prop := o = None \/ o = Some x.

(** A message that tells an SPU, with store [st], that a replica is gone: it is not in
    the list of all; it is deleted; or it is now marked as being deleted. *)
Inductive told_gone (st : list (Z * rspec)) (r : Z) : message -> Prop :=
  | gone_left : forall l, l <> [] -> In r (map fst st) -> ~ In r (map fst l) -> told_gone st r (All l)
  | gone_marked_all : forall a y b, ~ In r (map fst a) -> r_deleted y = true -> find_spec r st <> Some y -> told_gone st r (All (a ++ (r, y) :: b))
  | gone_deleted : forall a y b, ~ In r (map (fun c => fst (snd c)) a) -> In r (map fst st) -> told_gone st r (Changes (a ++ (false, (r, y)) :: b))
  | gone_marked : forall a y b, ~ In r (map (fun c => fst (snd c)) a) -> r_deleted y = true -> find_spec r st <> Some y -> told_gone st r (Changes (a ++ (true, (r, y)) :: b)).
(** A message that says nothing of the kind about a replica *)
Definition silent (r : Z) (m : message) : Prop :=
  match m with
  | All l => l = [] \/ (In r (map fst l) /\ forall y, In (r, y) l -> r_deleted y = false)
  | Changes l => forall u y, In (u, (r, y)) l -> u = true /\ r_deleted y = false
  end.

(** Whether a replica is there after some changes: the last one about it decides. *)
Fixpoint told (r : Z) (l : list (bool * (Z * rspec))) (before : Prop) : Prop :=
  match l with
  | [] => before
  | (u, (q, _)) :: t => told r t (if q =? r then u = true else before)
  end.
