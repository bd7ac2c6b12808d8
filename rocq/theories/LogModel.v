(** Model of class Logger, Core/Misc.{h,cpp}.  Texts are kept as given; formatError's file position is
    left out. *)

Require Import ZArith List Bool String.
Import ListNotations.

(** Logger::ErrorType, Misc.h 14 *)
Inductive severity := Warning | Error | FatalError | Notice.

(** The static members, Misc.cpp 10-16; [l_out]: the lines sent to std::cout. *)
Record logger := mkLog {
  l_queue : list (severity * string); l_errors : list string; l_error : bool; l_fatal : bool;
  l_strict : bool; l_silent : bool; l_level : nat; l_out : list string }.

Definition initial : logger := mkLog [] [] false false false false 0 [].

(** setFlags, 43-61 *)
Definition set_flags (s : logger) (t : severity) : logger :=
  let set e f := mkLog (l_queue s) (l_errors s) e f (l_strict s) (l_silent s) (l_level s) (l_out s) in
  match t with
  | Warning => if l_strict s then set true (l_fatal s) else s
  | Error => set true (l_fatal s)
  | FatalError => set true true
  | Notice => s
  end.

(** clear, 63-71: the suppression level stays *)
Definition log_clear (s : logger) : logger := mkLog [] [] false false false false (l_level s) (l_out s).

(** printLine, 73-79 *)
Definition print_line (s : logger) (text : string) : logger :=
  match l_level s with
  | O => mkLog (l_queue s) (l_errors s) (l_error s) (l_fatal s) (l_strict s) (l_silent s) (l_level s) (l_out s ++ [text])
  | _ => s
  end.

Definition push_error (s : logger) (text : string) : logger :=
  mkLog (l_queue s) (l_errors s ++ [text]) (l_error s) (l_fatal s) (l_strict s) (l_silent s) (l_level s) (l_out s).

(** printError, 89-101 *)
Definition print_error (s : logger) (t : severity) (text : string) : logger :=
  match l_level s with
  | O =>
      let s := push_error s text in
      let s := if l_silent s then s else print_line s text in
      set_flags s t
  | _ => s
  end.

(** queueError, 103-112 *)
Definition queue_error (s : logger) (t : severity) (text : string) : logger :=
  match l_level s with
  | O => mkLog (l_queue s ++ [(t, text)]) (l_errors s) (l_error s) (l_fatal s) (l_strict s) (l_silent s) (l_level s) (l_out s)
  | _ => s
  end.

(** printQueue, 114-125: the queue stays *)
Definition print_queue (s : logger) : logger :=
  fold_left (fun s '(t, text) =>
    let s := push_error s text in
    let s := if l_silent s then s else print_line s text in
    set_flags s t) (l_queue s) s.

(** clearQueue, setErrorOnWarning, setSilent, suppressErrors, unsuppressErrors, Misc.h 53-61 *)
Definition clear_queue (s : logger) : logger :=
  mkLog [] (l_errors s) (l_error s) (l_fatal s) (l_strict s) (l_silent s) (l_level s) (l_out s).
Definition set_strict (s : logger) (b : bool) : logger :=
  mkLog (l_queue s) (l_errors s) (l_error s) (l_fatal s) b (l_silent s) (l_level s) (l_out s).
Definition set_silent (s : logger) (b : bool) : logger :=
  mkLog (l_queue s) (l_errors s) (l_error s) (l_fatal s) (l_strict s) b (l_level s) (l_out s).
Definition set_level (s : logger) (n : nat) : logger :=
  mkLog (l_queue s) (l_errors s) (l_error s) (l_fatal s) (l_strict s) (l_silent s) n (l_out s).
Definition suppress (s : logger) : logger := set_level s (S (l_level s)).
Definition unsuppress (s : logger) : logger := set_level s (pred (l_level s)).

Inductive log_op :=
| OPrint (t : severity) (text : string) | OQueue (t : severity) (text : string) | OFlush | ODrop | OReset
| OStrict (b : bool) | OSilent (b : bool) | OSuppress | OUnsuppress.

Definition log_step (s : logger) (o : log_op) : logger :=
  match o with
  | OPrint t x => print_error s t x
  | OQueue t x => queue_error s t x
  | OFlush => print_queue s
  | ODrop => clear_queue s
  | OReset => log_clear s
  | OStrict b => set_strict s b
  | OSilent b => set_silent s b
  | OSuppress => suppress s
  | OUnsuppress => unsuppress s
  end.
Definition log_run (ops : list log_op) : logger := fold_left log_step ops initial.
