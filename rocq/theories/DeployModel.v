(** Connectors on this machine: start, list, log and shutdown.
    Source: crates/cdk/src/deploy.rs, crates/fluvio-connector-deployer/src (lib.rs,
    local.rs).

    Commands are given one after the other, in one working directory.  That package
    and config are accepted is the subject of ConnModel; here they are, and the process
    can be spawned.  A process that gets the signal ends.  Names are bytes. *)
Require Import List. Import ListNotations.
From Verif Require Import Base NameModel.

Definition text := list Z.
Definition same (a b : text) : bool := if list_eq_dec Z.eq_dec a b then true else false.

(** what a process is: a connector of a name, started as the number [r], or some
    other program *)
Inductive who := Conn (r : Z) (n : text) | Other.

(** cdk deploy.rs:377-387 [Entry] *)
Record entry := mkEntry { e_pid : Z; e_name : text; e_log : text; e_tmp : option Z }.

(** the index file, [None] if it is missing or cannot be parsed; processes by id;
    directories of unpacked packages; files of logs; the number of starts *)
Record machine := mkMach { x_index : option (list entry); x_proc : Z -> option who; x_tmp : Z -> bool; x_log : text -> list Z; x_starts : Z }.
Definition new_machine : machine := mkMach None (fun _ => None) (fun _ => false) (fun _ => []) 0.

(** deploy.rs:212-214: the log file of a connector, [PathBuf::set_extension] of the
    standard library: what follows the last dot is replaced, unless that is the first
    character.  Names with '/' are not considered. *)
Definition dot_log : text := [46; 108; 111; 103].
Definition log_name (n : text) : text :=
  match split_last 46 n with
  | Some ((_ :: _) as a, _) => a ++ dot_log
  | _ => n ++ dot_log
  end.

(** [LocalIndex::load], deploy.rs:404-421: an index that cannot be read is empty *)
Definition load (m : machine) : list entry := match x_index m with Some l => l | None => [] end.
(** [find_by_name], deploy.rs:455-465 *)
Definition find_by_name (n : text) (l : list entry) : option entry := find (fun e => same (e_name e) n) l.
(** [Vec::remove] at the place [find_by_name] gave *)
Fixpoint remove_first (n : text) (l : list entry) : list entry :=
  match l with [] => [] | e :: t => if same (e_name e) n then t else e :: remove_first n t end.

Definition set_proc (p : Z) (w : option who) (t : Z -> option who) : Z -> option who := fun x => if x =? p then w else t x.
Definition set_tmp (d : Z) (b : bool) (t : Z -> bool) : Z -> bool := fun x => if x =? d then b else t x.
Definition set_text (n : text) (l : list Z) (t : text -> list Z) : text -> list Z := fun x => if same x n then l else t x.

Inductive cmd :=
| Start (n : text) (pid : Z) (tmp : option Z)
| Shutdown (n : text)
| Exit (pid : Z)
| Foreign (pid : Z)
| Print (pid x : Z)
| Spoil
| Clean (d : Z).
Inductive answer := Done | Failed | NotFound.

Definition deploy_step (m : machine) (c : cmd) : machine * answer :=
  match c with
  | Start n pid tmp =>
      (* deploy.rs:183-229 [deploy_local], 570-574 [store], 423-434 [insert];
         fluvio-connector-deployer local.rs:24-66: the log file is created anew and the
         process spawned; after that the name is looked up.  The system gives an id
         that is free and a directory that is new. *)
      let l := load m in
      let proc := set_proc pid (Some (Conn (x_starts m) n)) (x_proc m) in
      let tmps := match tmp with Some d => set_tmp d true (x_tmp m) | None => x_tmp m end in
      let logs := set_text (log_name n) [] (x_log m) in
      match find_by_name n l with
      | Some _ => (mkMach (x_index m) proc tmps logs (x_starts m + 1), Failed)
      | None => (mkMach (Some (l ++ [mkEntry pid n (log_name n) tmp])) proc tmps logs (x_starts m + 1), Done)
      end
  | Shutdown n =>
      (* deploy.rs:581-610 [delete_by_name], 436-453 [remove], 518-531 [kill]; the
         index is written at the end, if nothing failed *)
      let l := load m in
      match find_by_name n l with
      | None => (mkMach (Some l) (x_proc m) (x_tmp m) (x_log m) (x_starts m), NotFound)
      | Some e =>
          let proc := set_proc (e_pid e) None (x_proc m) in
          match e_tmp e with
          | None => (mkMach (Some (remove_first n l)) proc (x_tmp m) (x_log m) (x_starts m), Done)
          | Some d =>
              if x_tmp m d then (mkMach (Some (remove_first n l)) proc (set_tmp d false (x_tmp m)) (x_log m) (x_starts m), Done)
              else (mkMach (x_index m) proc (x_tmp m) (x_log m) (x_starts m), Failed)
          end
      end
  | Exit pid => (mkMach (x_index m) (set_proc pid None (x_proc m)) (x_tmp m) (x_log m) (x_starts m), Done)
  | Foreign pid => (mkMach (x_index m) (set_proc pid (Some Other) (x_proc m)) (x_tmp m) (x_log m) (x_starts m), Done)
  | Print pid x =>
      (* a connector writes to its log; simplification: at the end *)
      match x_proc m pid with
      | Some (Conn _ n) => (mkMach (x_index m) (x_proc m) (x_tmp m) (set_text (log_name n) (x_log m (log_name n) ++ [x]) (x_log m)) (x_starts m), Done)
      | _ => (m, Done)
      end
  | Spoil => (mkMach None (x_proc m) (x_tmp m) (x_log m) (x_starts m), Done)
  | Clean d => (mkMach (x_index m) (x_proc m) (set_tmp d false (x_tmp m)) (x_log m) (x_starts m), Done)
  end.
Definition deployed (m : machine) (l : list cmd) : machine := fold_left (fun m c => fst (deploy_step m c)) l m.

(** [print_table], [status], deploy.rs:474-516: names and whether they run *)
Definition list_all (m : machine) : list (text * bool) :=
  map (fun e => (e_name e, match x_proc m (e_pid e) with Some _ => true | None => false end)) (load m).
(** [print_log], deploy.rs:612-629 *)
Definition show_log (n : text) (m : machine) : option (list Z) :=
  match find_by_name n (load m) with Some e => Some (x_log m (e_log e)) | None => None end.
