(** The commands of the CLI that produce and consume:
    fluvio-cli/src/client/produce/mod.rs and consume/mod.rs, consume/record_format.rs,
    fluvio-cli-common/src/user_input.rs, and the choice of partitions for a mirror,
    fluvio/src/fluvio.rs:362-424.

    Simplifications, for the whole file: SmartModules are left out, and so are tables,
    templates and what is written to the terminal besides records. *)
From Verif Require Import Base.
From Verif Require WireModel.
From Verif Require Import ConsumerModel.
Require Import List. Import ListNotations.

Definition nl : Z := 10.
Definition cr : Z := 13.
(** A string that std's reader accepts *)
Definition utf8 (b : bytes) : bool := WireModel.utf8_valid b.

(** * Lines of an input *)

(** What can be read of an input, and whether reading fails after that *)
Record input := mkInput { i_data : bytes; i_fails : bool }.
(** [BufRead::lines] of std: up to a newline, which is dropped, and so is a carriage
    return before it; what is behind the last newline is a line if there is anything.
    A line that is not UTF-8 is an error ([None]). *)
Definition chop (l : bytes) : bytes :=
  match rev l with c :: r => if c =? cr then rev r else l | [] => l end.
Fixpoint cut (d acc : bytes) : list (bytes * bool) :=
  match d with
  | [] => match acc with [] => [] | _ => [(acc, false)] end
  | c :: t => if c =? nl then (acc, true) :: cut t [] else cut t (acc ++ [c])
  end.
(** Each line, and whether it has a newline.  A read that fails in the middle of a
    line is an error instead of that line; one that fails after a line is an error
    after it. *)
Definition read_line (e : bytes * bool) : option bytes :=
  if utf8 (fst e) then Some (if snd e then chop (fst e) else fst e) else None.
Definition lines (i : input) : list (option bytes) :=
  if i_fails i
  then map read_line (filter (fun e => snd e) (cut (i_data i) [])) ++ [None]
  else map read_line (cut (i_data i) []).
(** [reader.lines().map_while(|it| it.ok())], produce/mod.rs:372, and
    [while let Some(Ok(line)) = lines.next()], 407: until the first error *)
Fixpoint until_error (l : list (option bytes)) : list bytes :=
  match l with Some x :: t => x :: until_error t | _ => [] end.

(** * Producing *)

(** --key, --key-separator (a group: not both), produce/mod.rs:71-81 *)
Inductive keying := NoKey | Key (k : bytes) | Separator (s : bytes).
(** [split_once] of std *)
Fixpoint starts (s l : bytes) : option bytes :=
  match s, l with
  | [], _ => Some l
  | a :: s', b :: l' => if a =? b then starts s' l' else None
  | _, [] => None
  end.
Fixpoint split_once (s l acc : bytes) : option (bytes * bytes) :=
  match starts s l with
  | Some r => Some (acc, r)
  | None => match l with [] => None | c :: t => split_once s t (acc ++ [c]) end
  end.
Definition record := (option bytes * bytes)%type.
(** [produce_line], 425-440, and [produce_key_value], 442-466: the record of a line,
    if it has one *)
Definition record_of (k : keying) (line : bytes) : option record :=
  match k with
  | NoKey => Some (None, line)
  | Key x => Some (Some x, line)
  | Separator s => match split_once s line [] with Some (a, v) => Some (Some a, v) | None => None end
  end.
Fixpoint records_of (k : keying) (l : list bytes) : list record :=
  match l with [] => [] | x :: t => match record_of k x with Some r => r :: records_of k t | None => records_of k t end end.

(** What becomes of a record that is handed to the producer: it is refused; it is
    taken, and waiting for it succeeds or fails *)
Inductive fate := Refused | Taken (acked : bool).
Definition acked (f : fate) : bool := match f with Taken a => a | Refused => false end.
Inductive result := Done | Failed.
(** What was handed to the producer, with what became of it *)
Definition handed := list (record * fate).
(** [produce_lines] from a file, 367-391: one after the other; at the end all are
    waited for.  [fates]: what becomes of the records in turn. *)
Fixpoint hand_all (l : list record) (fates : nat -> fate) (n : nat) : handed * bool :=
  match l with
  | [] => ([], true)
  | r :: t => match fates n with
              | Refused => ([(r, Refused)], false)
              | Taken a => let (h, ok) := hand_all t fates (S n) in ((r, Taken a) :: h, ok)
              end
  end.
Definition from_file (l : list record) (at_most_once : bool) (fates : nat -> fate) : handed * result :=
  let (h, ok) := hand_all l fates 0 in
  (h, if ok && (at_most_once || forallb (fun e => acked (snd e)) h) then Done else Failed).
(** [producer_stdin], 401-423: each is waited for before the next *)
Fixpoint from_stdin (l : list record) (at_most_once : bool) (fates : nat -> fate) (n : nat) : handed * result :=
  match l with
  | [] => ([], Done)
  | r :: t =>
      match fates n with
      | Refused => ([(r, Refused)], Failed)
      | Taken a =>
          if at_most_once || a
          then let (h, x) := from_stdin t at_most_once fates (S n) in ((r, Taken a) :: h, x)
          else ([(r, Taken a)], Failed)
      end
  end.
(** --file; [None]: a file that cannot be opened *)
Inductive source := File (i : option input) | Stdin (i : input).
(** [process_raw_file], 319-355, [UserInputRecords], user_input.rs:41-52, 79-105: a
    file that cannot be opened or read counts as an empty one, and the key is lost *)
Definition key_of (k : keying) : option bytes := match k with Key x => Some x | _ => None end.
Definition raw_record (k : keying) (s : source) : option record :=
  match s with
  | File (Some i) => if i_fails i then Some (None, []) else Some (key_of k, i_data i)
  | File None => Some (None, [])
  | Stdin i => if i_fails i then None else Some (key_of k, i_data i)
  end.
Record produce_opt := mkProduce { p_key : keying; p_raw : bool; p_source : source; p_at_most_once : bool }.
(** [process_client], 196-314, from [process_raw_file] on; [flushed]: whether
    [flush], 307, succeeds *)
Definition produce (o : produce_opt) (fates : nat -> fate) (flushed : bool) : handed * result :=
  let (h, x) :=
    if p_raw o
    then match raw_record (p_key o) (p_source o) with
         | Some r => from_file [r] (p_at_most_once o) fates
         | None => ([], Failed)
         end
    else match p_source o with
         | File (Some i) => from_file (records_of (p_key o) (until_error (lines i))) (p_at_most_once o) fates
         | File None => ([], Failed)
         | Stdin i => from_stdin (records_of (p_key o) (until_error (lines i))) (p_at_most_once o) fates 0
         end in
  (h, match x with Done => if flushed then Done else Failed | Failed => Failed end).

(** * The partition of a mirror *)

(** A topic: its name, and how it is mirrored.  Home: for each partition the remote
    cluster, and whether the partition is a source; remote: the home cluster, how many
    partitions, and whether it is a target (topic/spec.rs:836-846, 917-933: the id of
    a partition is its place). *)
Inductive mirroring := Plain (n : nat) | Home (l : list (bytes * bool)) | Remote (home : bytes) (n : nat) (target : bool).
Definition topic := (bytes * mirroring)%type.
Definition same (a b : bytes) : bool := if list_eq_dec Z.eq_dec a b then true else false.
Fixpoint index (f : bytes * bool -> bool) (l : list (bytes * bool)) (i : nat) : option nat :=
  match l with [] => None | x :: t => if f x then Some i else index f t (S i) end.
(** --mirror of produce, produce/mod.rs:236-276: of any topic that has one *)
Definition produce_to (m : bytes) (t : topic) : option nat :=
  match snd t with
  | Home l => index (fun e => same (fst e) m && snd e) l 0
  | Remote h n target => match n with O => None | S _ => if same h m && target then Some 0%nat else None end
  | Plain _ => None
  end.
Fixpoint mirror_partition (m : bytes) (l : list topic) : option nat :=
  match l with [] => None | t :: r => match produce_to m t with Some i => Some i | None => mirror_partition m r end end.
(** --mirror of consume, fluvio.rs:378-416: of the topic; without one, all *)
Definition count (m : mirroring) : nat := match m with Plain n => n | Home l => length l | Remote _ n _ => n end.
Definition consume_from (m : bytes) (t : topic) : option nat :=
  match snd t with
  | Home l => index (fun e => same (fst e) m) l 0
  | Remote h n _ => match n with O => None | S _ => if same h m then Some 0%nat else None end
  | Plain _ => None
  end.
Definition consume_partitions (m : option bytes) (p : list nat) (t : topic) : list nat :=
  match match m with Some x => consume_from x t | None => None end with
  | Some i => [i]
  | None => match p with [] => seq 0 (count (snd t)) | _ => p end
  end.

(** * Consuming *)

(** What the stream of the client gives: records of its partitions, or an error.
    [Stop]: Ctrl-C. *)
Record item := mkItem { t_partition : nat; t_offset : Z; t_record : record }.
Inductive event := Rec (x : item) | MaxRetry | Error | Stop.
(** [consume_records_stream], consume/mod.rs:408-592: the records that are printed,
    and the result.  [tty]: to a terminal, where running out of retries is no error. *)
Fixpoint consume (tty : bool) (last : option Z) (l : list event) : list item * result :=
  match l with
  | [] => ([], Done)
  | Stop :: _ => ([], Done)
  | MaxRetry :: _ => ([], if tty then Done else Failed)
  | Error :: _ => ([], Failed)
  | Rec x :: t =>
      if match last with Some e => e <=? t_offset x | None => false end then ([x], Done)
      else let (k, r) := consume tty last t in (x :: k, r)
  end.
(** --beginning, --head, --start, --tail (each excludes the others) *)
Inductive from := Beginning | Head (n : Z) | Start (n : Z) | Tail (n : Z) | Default.
(** [calculate_offset], 762-776 *)
Definition offset_of (f : from) : request :=
  match f with Beginning => FromBeginning 0 | Head n => FromBeginning n | Start n => Absolute n | Tail n => FromEnd n | Default => FromEnd 0 end.
(** 371-381: --end before --start *)
Definition crossed (f : from) (last : option Z) : bool :=
  match f, last with Start a, Some e => e <? a | _, _ => false end.
(** [consume_records], 303-405: the stream is opened from an offset *)
Definition consume_cmd (f : from) (tty : bool) (last : option Z) (stream : request -> list event) : list item * result :=
  if crossed f last then ([], Failed) else consume tty last (stream (offset_of f)).

(** ** Printing.  What the libraries do: whether data counts as binary
    ([content_inspector]), [String::from_utf8_lossy], a hex dump, and reading and
    writing JSON (pretty, or the error). *)
Record printer := mkPrinter { q_binary : bytes -> bool; q_lossy : bytes -> bytes; q_hex : bytes -> bytes;
                              q_json : bytes -> option bytes; q_json_error : bytes -> bytes }.
Inductive output := Dynamic | Text | Binary | Json | Raw.
Definition null_text : bytes := [110; 117; 108; 108].
Section Print.
  Variable Q : printer.
  (** "binary: (n bytes)" *)
  Variable sized : Z -> bytes.
  (** record_format.rs:21-78 *)
  Definition format_value (o : output) (suppress : bool) (v : bytes) : option bytes :=
    match o with
    | Json => match q_json Q v with Some x => Some x | None => if suppress then None else Some (q_json_error Q v) end
    | Text => Some (if q_binary Q v && negb suppress then sized (zlen v) else q_lossy Q v)
    | Binary => Some (q_hex Q v)
    | Dynamic => Some (if q_binary Q v then q_hex Q v else q_lossy Q v)
    | Raw => Some (q_lossy Q v)
    end.
  (** [print_record], consume/mod.rs:602-700: --key-value; a newline after each *)
  Definition print_record (o : output) (suppress key_value : bool) (r : record) : bytes :=
    match format_value o suppress (snd r) with
    | None => []
    | Some v =>
        (if key_value
         then [91] ++ match fst r with Some k => q_lossy Q k | None => null_text end ++ [93; 32] ++ v
         else v) ++ [nl]
    end.
  Definition print_all (o : output) (suppress key_value : bool) (l : list item) : bytes :=
    flat_map (fun x => print_record o suppress key_value (t_record x)) l.
End Print.
