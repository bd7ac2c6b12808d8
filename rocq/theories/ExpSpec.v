(** What an import may define. *)

Require Import ZArith String Ascii List Bool.
From Verif Require Import LexModel SymModel ElfModel ExpModel.
Import ListNotations.
Local Open Scope list_scope.

(** Names are the same if they differ in upper and lower case only. *)
Definition key (s : xsym) : string := lower_string (x_name s).

(** The symbols can all be defined: the names are names of labels, none is taken, no two are the same. *)
Definition importable (t : xtable) (l : list xsym) : Prop :=
  (forall s, In s l -> valid_name (key s) = true /\ t (key s) = XFree) /\ NoDup (map key l).

(** The first symbol with a name. *)
Inductive first_with (n : string) : list xsym -> xsym -> Prop :=
| fw : forall a s b, key s = n -> (forall x, In x a -> key x <> n) -> first_with n (a ++ s :: b) s.

(** The name of the symbol is taken where it stands: by the source or by an earlier symbol. *)
Definition taken (t : xtable) (a : list xsym) (s : xsym) : Prop :=
  (exists l, t (key s) = XLabel l) \/ (t (key s) = XFree /\ exists x, In x a /\ key x = key s).
