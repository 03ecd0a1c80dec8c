(** What should hold of release channels. *)
From Coq Require Import ZArith List Bool.
Import ListNotations.
From Verif Require Import Base ChannelModel.
Open Scope Z_scope.

Definition ans (m : machine) (k : cmd) : answer := snd (step m k).
Definition after (m : machine) (k : cmd) : machine := fst (step m k).
(** the channel in use, and what is known of a channel *)
Definition current (m : machine) : option chan := match h_conf m 0 with Holds g => g_cur g | _ => None end.
Definition known (m : machine) (c : chan) : option info := match h_conf m 0 with Holds g => g_chan g c | _ => None end.
Definition usable (m : machine) : Prop := exists g, h_conf m 0 = Holds g.
(** commands that use the config of the default location and leave it readable *)
Definition usual (k : cmd) : Prop :=
  match k with Create f _ _ _ _ _ | Switch f _ _ | Delete f _ => f = 0 | Spoil _ => False | Run _ _ | Put _ _ => True end.
(** a channel that exists without being created *)
Definition built_in (c : chan) : option info :=
  match c with
  | Stable => Some (mkInfo (Bin Stable) (Ext Stable) ByVersion)
  | Latest => Some (mkInfo (Bin Latest) (Ext Latest) ByBoth)
  | Dev => Some (mkInfo Own Here ByGit)
  | _ => None
  end.
(** the release is found in the package index *)
Definition found_release (c : chan) (n : net) (v : Z) : Prop :=
  match c with
  | Tag w => v = w /\ exists x y, n = Got x y
  | Stable | Loud false _ => exists w, n = Got v w
  | Latest | Loud true _ => exists w, n = Got w v
  | _ => False
  end.
(** commands that are no switch, and leave the channel [c] alone *)
Definition leaves (c : chan) (k : cmd) : Prop :=
  match k with Create _ d _ _ _ _ | Delete _ d => d <> c | Switch _ _ _ => False | _ => True end.
Definition no_switch (k : cmd) : Prop := match k with Switch _ _ _ => False | _ => True end.
(** what is asked for when a channel is created *)
Definition asked (c : chan) (b e : option path) (s : option strategy) : info :=
  mkInfo (match b with Some p => p | None => Bin c end) (match e with Some p => p | None => BinExt c end) (match s with Some t => t | None => ByVersion end).
