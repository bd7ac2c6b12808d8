(** Specification of equ and macro argument replacement: every occurrence of a name stands for the
    full expansion of its replacement. *)

Require Import ZArith List String.
From Verif Require Import ParseModel.
Import ListNotations.

Section Spec.
(** Arguments of the macro being expanded, and visible equs. *)
Variable arg : string -> option (list token).
Variable equ : string -> option (list token).

Inductive full : list token -> list token -> Prop :=
| full_nil : full [] []
| full_cons : forall t r o1 o2, full1 t o1 -> full r o2 -> full (t :: r) (o1 ++ o2)
with full1 : token -> list token -> Prop :=
| full_keep : forall t, (forall x, t = TIdent x -> arg x = None /\ equ x = None) -> full1 t [t]
| full_arg : forall x v, arg x = Some v -> full1 (TIdent x) v
| full_equ : forall x w o, arg x = None -> equ x = Some w -> full w o -> full1 (TIdent x) o.

Definition before_equ (r : list token) : Prop := exists r', r = TEqu :: r'.
Definition is_arg (t : token) : Prop := exists x v, t = TIdent x /\ arg x = Some v.

(** A whole source: a name in front of the keyword equ is being declared, so it is not replaced. *)
Inductive expansion : list token -> list token -> Prop :=
| exp_nil : expansion [] []
| exp_declared : forall t r o, before_equ r -> ~ is_arg t -> expansion r o -> expansion (t :: r) (t :: o)
| exp_token : forall t r o1 o2, ~ before_equ r \/ is_arg t -> full1 t o1 -> expansion r o2 ->
    expansion (t :: r) (o1 ++ o2).
End Spec.

Scheme full_mut := Induction for full Sort Prop
with full1_mut := Induction for full1 Sort Prop.
Combined Scheme full_full1_ind from full_mut, full1_mut.
