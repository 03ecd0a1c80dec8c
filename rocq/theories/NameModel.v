(** Text forms: replica ids and log file names.  Text is a list of byte values
    (UTF-8); '-' is 45, '.' is 46, '0'..'9' are 48..57, '+' is 43. *)
From Verif Require Export Base.

(** Decimal printing of a non-negative integer ([Display] of u32/i64).  The fuel
    bounds the number of digits; 20 is enough for 64 bits. *)
Fixpoint dec_digits (fuel : nat) (n : Z) : bytes :=
  match fuel with
  | O => []
  | S f => if n <? 10 then [48 + n] else dec_digits f (n / 10) ++ [48 + n mod 10]
  end.
Definition print_dec (n : Z) : bytes := dec_digits 20 n.

(** Digits of [str::parse] for an unsigned result bounded by [max]: each step
    multiplies and adds with overflow check (core::num, from_str_radix). *)
Fixpoint parse_digits (max acc : Z) (l : bytes) : option Z :=
  match l with
  | [] => Some acc
  | d :: t => if (48 <=? d) && (d <=? 57) then
                let a := acc * 10 + (d - 48) in
                if a <=? max then parse_digits max a t else None
              else None
  end.
(** [parse::<u32>]: an optional leading '+', at least one digit. *)
Definition parse_unsigned (max : Z) (l : bytes) : option Z :=
  match l with
  | [] => None
  | [43] => None
  | 43 :: t => parse_digits max 0 t
  | _ => parse_digits max 0 l
  end.
(** [parse::<i64>]: also a leading '-'. *)
Definition parse_i64 (l : bytes) : option Z :=
  match l with
  | [] => None
  | [45] => None
  | 45 :: t => match parse_digits (2 ^ 63) 0 t with Some n => Some (- n) | None => None end
  | _ => parse_unsigned (2 ^ 63 - 1) l
  end.

(** [ReplicaKey] display, record/replica.rs (Display of ReplicaKey):
    "{topic}-{partition}". *)
Definition print_replica (topic : bytes) (partition : Z) : bytes := topic ++ [45] ++ print_dec partition.

(** [str::rfind(c)]: text before and after the last occurrence. *)
Fixpoint split_last (c : Z) (l : bytes) : option (bytes * bytes) :=
  match l with
  | [] => None
  | x :: t => match split_last c t with
              | Some (a, b) => Some (x :: a, b)
              | None => if x =? c then Some ([], t) else None
              end
  end.
(** [decompose_partition_name], record/replica.rs:92-115.  PartitionId is u32. *)
Definition parse_replica (s : bytes) : option (bytes * Z) :=
  match split_last 45 s with
  | None => None
  | Some (topic, idx) =>
      match idx with
      | [] => None
      | _ => match parse_unsigned (2 ^ 32 - 1) idx with Some n => Some (topic, n) | None => None end
      end
  end.

(** [generate_file_name], fluvio-storage/src/util.rs:8-15, for a non-negative
    offset: zero padded to 20 characters, then the extension.  The directory is
    left out. *)
Definition file_name (offset : Z) (ext : bytes) : bytes :=
  let d := print_dec offset in repeat 48 (20 - length d) ++ d ++ [46] ++ ext.
(** [Path::file_stem]: text before the last '.', unless that is at the start. *)
Definition file_stem (s : bytes) : bytes :=
  match split_last 46 s with
  | None => s
  | Some ([], _) => s
  | Some (a, _) => a
  end.
(** [log_path_get_offset], util.rs:29-50 *)
Definition parse_file_name (s : bytes) : option Z :=
  let stem := file_stem s in
  if Nat.eqb (length stem) 20 then parse_i64 stem else None.

(** Order of names: lexicographic by bytes (how file systems and paths sort). *)
Fixpoint lex (a b : bytes) : comparison :=
  match a, b with
  | [], [] => Eq
  | [], _ => Lt
  | _, [] => Gt
  | x :: a', y :: b' => match x ?= y with Eq => lex a' b' | c => c end
  end.
