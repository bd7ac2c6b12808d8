(** Histories of equ declarations and label mentions in one assembly. *)

Require Import ZArith List String.
From Verif Require Import LexModel ParseModel SymModel SymSpec SymIface ExpandModel.
Import ListNotations.

(** Identifiers are in lower case, as the tokenizer produces them. *)
Definition lowered (t : token) : Prop := forall x, t = TIdent x -> lower_string x = x.

(** [equ_history ds q]: the equs [ds] were declared, in this order, by source lines
    "name equ value" whose value is not empty; label mentions and definitions happen in between. *)
Inductive equ_history : list sref -> equs -> Prop :=
| hist_nil : equ_history [] no_equs
| hist_label : forall ds q a, equ_history ds q ->
    (exists r, a = Reference r \/ exists v, a = Define r v) ->
    equ_history ds (mkEqus (act (q_table q) a) (q_values q))
| hist_equ : forall ds q r t0 value fuel q', equ_history ds q ->
    lower_string (r_name r) = r_name r -> Forall lowered (t0 :: value) -> is_separator t0 = false ->
    define_equ fuel q (r_name r) (r_file r) (r_section r) (t0 :: value) = Some q' ->
    equ_history (ds ++ [r]) q'.

(** The section number only grows while a source is read, so the declarations are in section order,
    and all are from sections up to the current one; and either all of them are from the current file
    or none is a static equ (a name with a single @). *)
Definition ordered (ds : list sref) (file section : Z) : Prop :=
  (forall i j a b, nth_error ds i = Some a -> nth_error ds j = Some b -> (i <= j)%nat ->
     (r_section a <= r_section b)%Z) /\
  (forall a, In a ds -> (r_section a <= section)%Z) /\
  ((forall a, In a ds -> r_file a = file) \/ (forall a, In a ds -> forall g, scope_of a <> Static g)).
