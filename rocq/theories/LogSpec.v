(** What a history of messages means.  Histories are read from the latest event backwards. *)

Require Import List Bool String.
From Verif Require Import LogModel.
Import ListNotations.

(** How many suppressions are in force. *)
Fixpoint depth (h : list log_op) : nat :=
  match h with
  | [] => 0
  | OSuppress :: h => S (depth h)
  | OUnsuppress :: h => pred (depth h)
  | _ :: h => depth h
  end.

(** Whether warnings count as errors. *)
Fixpoint strict (h : list log_op) : bool :=
  match h with
  | [] => false
  | OStrict b :: _ => b
  | OReset :: _ => false
  | _ :: h => strict h
  end.

(** A message waits if it was queued and not dropped since. *)
Inductive waits (t : severity) (x : string) : list log_op -> Prop :=
| w_here h : depth h = 0 -> waits t x (OQueue t x :: h)
| w_later o h : o <> ODrop -> o <> OReset -> waits t x h -> waits t x (o :: h).

Definition counts (w : bool) (t : severity) : Prop :=
  match t with Error | FatalError => True | Warning => w = true | Notice => False end.

(** Since the last reset an error was printed, directly or by flushing the queue. *)
Inductive failed : list log_op -> Prop :=
| f_print t x h : depth h = 0 -> counts (strict h) t -> failed (OPrint t x :: h)
| f_flush t x h : waits t x h -> counts (strict h) t -> failed (OFlush :: h)
| f_later o h : o <> OReset -> failed h -> failed (o :: h).

(** Calls that suppress and unsuppress in matching pairs, with other calls between. *)
Inductive balanced : list log_op -> Prop :=
| bal_nil : balanced []
| bal_other o l : o <> OSuppress -> o <> OUnsuppress -> balanced l -> balanced (o :: l)
| bal_pair a b : balanced a -> balanced b -> balanced (OSuppress :: a ++ OUnsuppress :: b).
