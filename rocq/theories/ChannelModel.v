(** Release channels of the command line: create, switch, delete, and the front end that
    runs the binary of the current channel.
    Source: crates/fluvio-channel/src/lib.rs, crates/fluvio-channel-cli/src (bin/main.rs,
    lib.rs, cli/create.rs, cli/switch.rs, cli/delete.rs).

    The front end is installed as "fluvio" and not told otherwise by its environment.
    There is a home directory, and the system is not Windows.  What the package index has
    is the subject of PkgModel; here a command is given what it gets from there. *)
From Coq Require Import ZArith List Bool.
From Verif Require Import Base.

(** names of channels: the three that are known, versions, names that differ from
    "stable" ([false]) or "latest" ([true]) in case only, and others *)
Inductive chan := Stable | Latest | Dev | Tag (v : Z) | Loud (latest : bool) (k : Z) | Word (k : Z).
Definition chan_eqb (a b : chan) : bool :=
  match a, b with
  | Stable, Stable | Latest, Latest | Dev, Dev => true
  | Tag v, Tag w | Word v, Word w => v =? w
  | Loud l v, Loud k w => Bool.eqb l k && (v =? w)
  | _, _ => false
  end.

(** places: ~/.fluvio/bin/fluvio-<c>, ~/.fluvio/extensions-<c> (without "-stable"),
    ~/.fluvio/bin/extensions-<c>, the front end itself, "extensions" in the working
    directory, and places given by the user (that are none of those) *)
Inductive path := Bin (c : chan) | Ext (c : chan) | BinExt (c : chan) | Own | Here | At (z : Z).
Definition path_eqb (a b : path) : bool :=
  match a, b with
  | Bin c, Bin d | Ext c, Ext d | BinExt c, BinExt d => chan_eqb c d
  | Own, Own | Here, Here => true
  | At x, At y => x =? y
  | _, _ => false
  end.

(** fluvio-channel lib.rs:182-200 [ImageTagStrategy], 202-207 [FluvioChannelInfo],
    166-170 [ChannelConfig] *)
Inductive strategy := ByVersion | ByBoth | ByGit.
Record info := mkInfo { i_bin : path; i_ext : path; i_tag : strategy }.
Record config := mkConfig { g_cur : option chan; g_chan : chan -> option info }.
(** [Default]: the current channel is the empty name, that is none *)
Definition no_config : config := mkConfig None (fun _ => None).

(** a config file is missing, cannot be parsed, or holds a config *)
Inductive file := Missing | Broken | Holds (g : config).
(** what is in a place: the front end, a release, or a directory *)
Inductive thing := Front | Rel (v : Z) | Dir.
(** config files by number, 0 is that of the default location *)
Record machine := mkMach { h_conf : Z -> file; h_at : path -> option thing }.
Definition set_conf (f : Z) (x : file) (t : Z -> file) : Z -> file := fun y => if y =? f then x else t y.
Definition set_at (p : path) (x : option thing) (t : path -> option thing) : path -> option thing := fun y => if path_eqb y p then x else t y.
Definition set_chan (c : chan) (x : option info) (t : chan -> option info) : chan -> option info := fun y => if chan_eqb y c then x else t y.
Definition is_some {A} (x : option A) : bool := match x with Some _ => true | None => false end.

(** lib.rs:224-264 [new_channel], 293-326 [stable_channel], [latest_channel],
    [dev_channel] *)
Definition new_channel (c : chan) (s : strategy) : info := mkInfo (Bin c) (Ext c) s.
Definition stable_channel : info := new_channel Stable ByVersion.
Definition latest_channel : info := new_channel Latest ByBoth.
Definition dev_channel : info := mkInfo Own Here ByGit.

(** lib.rs:342-364 [FluvioBinVersion] *)
Inductive release := NewestStable | NewestLatest | Exactly (v : Z).
Definition parse (c : chan) : option release :=
  match c with
  | Stable | Loud false _ => Some NewestStable
  | Latest | Loud true _ => Some NewestLatest
  | Tag v => Some (Exactly v)
  | Dev | Word _ => None
  end.
(** lib.rs:381-383 [is_pinned_version_channel] *)
Definition is_pinned (c : chan) : bool := match c with Stable | Latest | Dev => false | _ => true end.

(** what the package index answers: no version found, no package of the version, or the
    package; [v] is the newest stable version, [w] the newest of all.  channel-cli lib.rs:12-77
    [install_channel_fluvio_bin]: that there is no package is not an error *)
Inductive net := NoVersion | NoPackage | Got (v w : Z).
Definition install (r : release) (n : net) (p : path) (t : path -> option thing) : option (path -> option thing) :=
  match r, n with
  | Exactly v, Got _ _ => Some (set_at p (Some (Rel v)) t)
  | Exactly _, _ => Some t
  | _, NoVersion => None
  | _, NoPackage => Some t
  | NewestStable, Got v _ => Some (set_at p (Some (Rel v)) t)
  | NewestLatest, Got _ w => Some (set_at p (Some (Rel w)) t)
  end.

(** [from_file] with the default in place of an error, create.rs:55-63, switch.rs:51-57:
    the path to save to is then that of the default location *)
Definition opened (f : Z) (m : machine) : Z * config := match h_conf m f with Holds g => (f, g) | _ => (0, no_config) end.
Definition save (f : Z) (g : config) (m : machine) : machine := mkMach (set_conf f (Holds g) (h_conf m)) (h_at m).
Definition or {A} (x : option A) (y : A) : A := match x with Some a => a | None => y end.

Inductive cmd :=
| Create (f : Z) (c : chan) (bin ext : option path) (s : option strategy) (n : net)
| Switch (f : Z) (c : chan) (n : net)
| Delete (f : Z) (c : chan)
| Run (boot : option chan) (update : bool)
| Spoil (f : Z)
| Put (p : path) (x : option thing).
(** [Ran]: the release that runs, with the channel, its extensions and its strategy in
    the environment; [Loop]: the front end ran itself; [Quiet]: the front end ends as if
    all was well and nothing ran *)
Inductive answer := Done | Failed | NotFound | Ran (v : Z) (c : chan) (e : path) (s : strategy) | Loop | Quiet | Unsupported.

(** create.rs:46-117 *)
Definition create (f : Z) (c : chan) (bin ext : option path) (s : option strategy) (n : net) (m : machine) : machine * answer :=
  let (w, g) := opened f m in
  let i := mkInfo (or bin (Bin c)) (or ext (BinExt c)) (or s ByVersion) in
  let g' := mkConfig (g_cur g) (set_chan c (Some i) (g_chan g)) in
  if is_some (h_at m (i_bin i)) then (save w g' m, Done)
  else match parse c with
       | None => (m, Failed)
       | Some r => match install r n (i_bin i) (h_at m) with
                   | None => (m, Failed)
                   | Some t => (save w g' (mkMach (h_conf m) t), Done)
                   end
       end.
(** switch.rs:29-134 *)
Definition switch (f : Z) (c : chan) (n : net) (m : machine) : machine * answer :=
  let (w, g) := opened f m in
  match g_chan g c with
  | Some _ => (save w (mkConfig (Some c) (g_chan g)) m, Done)
  | None =>
      let with_info i := save w (mkConfig (Some c) (set_chan c (Some i) (g_chan g))) m in
      let first i r :=
        let m' := with_info i in
        if is_some (h_at m (i_bin i)) then (m', Done)
        else match install r n (i_bin i) (h_at m) with
             | None => (m', Failed)
             | Some t => (mkMach (h_conf m') t, Done)
             end in
      match c with
      | Stable => first stable_channel NewestStable
      | Latest => first latest_channel NewestLatest
      | Dev => (with_info dev_channel, Done)
      | _ => (m, Failed)
      end
  end.
(** delete.rs:39-73; [remove_file] fails for a directory, [remove_dir_all] for a file *)
Definition delete (f : Z) (c : chan) (m : machine) : machine * answer :=
  match h_conf m f with
  | Holds g =>
      match g_chan g c with
      | None => (m, NotFound)
      | Some i =>
          let m' := save f (mkConfig (g_cur g) (set_chan c None (g_chan g))) m in
          match h_at m (i_bin i) with
          | Some Dir | None => (m', Failed)
          | Some _ =>
              let t := set_at (i_bin i) None (h_at m) in
              match t (i_ext i) with
              | Some Dir => (mkMach (h_conf m') (set_at (i_ext i) None t), Done)
              | _ => (mkMach (h_conf m') t, Failed)
              end
          end
      end
  | _ => (m, NotFound)
  end.
(** main.rs:293-346: [exec] of the binary; its error is dropped.  The front end that runs
    itself finds the mark of the first run, main.rs:115-131 *)
Definition exec (c : chan) (i : info) (update : bool) (m : machine) : answer :=
  if update && is_pinned c then Unsupported
  else match h_at m (i_bin i) with
       | Some (Rel v) => Ran v c (i_ext i) (i_tag i)
       | Some Front => Loop
       | Some Dir | None => Quiet
       end.
(** main.rs:220-283 *)
Definition run (boot : option chan) (update : bool) (m : machine) : machine * answer :=
  match h_conf m 0 with
  | Broken => (m, Failed)
  | Holds g =>
      match g_cur g with
      | None => (m, Failed)
      | Some c => match g_chan g c with None => (m, Failed) | Some i => (m, exec c i update m) end
      end
  | Missing =>
      let start c i := let m' := save 0 (mkConfig (Some c) (set_chan c (Some i) (fun _ => None))) m in (m', exec c i update m') in
      match boot with
      | None => start Stable stable_channel
      | Some c =>
          match parse c with
          | None => (m, Failed)
          | Some NewestLatest => start c (new_channel c ByBoth)
          | Some _ => start c (new_channel c ByVersion)
          end
      end
  end.
Definition step (m : machine) (k : cmd) : machine * answer :=
  match k with
  | Create f c b e s n => create f c b e s n m
  | Switch f c n => switch f c n m
  | Delete f c => delete f c m
  | Run b u => run b u m
  | Spoil f => (mkMach (set_conf f Broken (h_conf m)) (h_at m), Done)
  | Put p x => (mkMach (h_conf m) (set_at p x (h_at m)), Done)
  end.
(** a machine on which only the front end is installed *)
Definition installed : machine := mkMach (fun _ => Missing) (set_at Own (Some Front) (fun _ => None)).
Definition steps (m : machine) (l : list cmd) : machine := fold_left (fun m k => fst (step m k)) l m.
