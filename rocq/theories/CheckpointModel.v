(** Model of the durable high watermark: a task that lazily writes the value of
    a publisher to a file.
    Source: crates/fluvio-storage/src/checkpoint.rs:57-101 (create), 114-125
    (write, drop), 150-178 (the loop), 181-200 (read);
    crates/fluvio-types/src/event.rs:121-175 (change listener).

    Simplifications: a run of the writer is atomic (the file is 8 bytes);
    writing succeeds. *)
From Verif Require Export StorageModel.

(** [w_value]: the publisher; [w_seen]: last value of the listener, initially
    0; [w_start]: [LazyWriter::offset], set by [read] only; [w_file]. *)
Record writer := mkWriter { w_value : Z; w_seen : Z; w_start : Z; w_file : ckpt }.

(** [create]: a missing file is created empty. *)
Definition open_writer (k : ckpt) (initial : Z) : writer :=
  match k with
  | Missing => mkWriter initial 0 0 Unreadable
  | Unreadable => mkWriter 0 0 0 Unreadable
  | Value o => mkWriter o 0 o (Value o)
  end.

(** [SetTo]: [CheckPoint::write]; [Run]: the loop takes the listener branch if
    the listener has a new value.  The loop ends when the flush event is set:
    after that there is no more [Run]; [select!] may take that branch although
    a new value is pending. *)
Inductive wevent := SetTo (o : Z) | Run.
Definition wstep (w : writer) (e : wevent) : writer :=
  match e with
  | SetTo o => mkWriter o (w_seen w) (w_start w) (w_file w)
  | Run =>
      if w_value w =? w_seen w then w
      else mkWriter (w_value w) (w_value w) (w_start w)
                    (if w_value w =? w_start w then w_file w else Value (w_value w))
  end.
Definition wrun (w : writer) (l : list wevent) : writer := fold_left wstep l w.

(** The value found when the file is opened again. *)
Definition read_back (w : writer) : Z := ckpt_value 0 (w_file w).
