(** Running a history of actions on the modelled symbol table, and what a lookup shows. *)

Require Import ZArith List String.
From Verif Require Import SymModel SymSpec.
Import ListNotations.

Definition act (t : table) (a : action) : table :=
  match a with
  | Reference r => fst (get_label t (r_name r) (r_file r) (r_section r))
  | Define r v => fst (define_label t (r_name r) (r_file r) (r_section r) v)
  | DefineEqu r i => fst (add_equation t (r_name r) (r_file r) (r_section r) i)
  | Generate b => fst (get_unique t b)
  | Clear => clear t
  end.
Definition run_actions (t : table) (h : list action) : table := fold_left act h t.

(** The label object a reference is resolved to. *)
Definition object (t : table) (r : sref) : option nat :=
  snd (get_label t (r_name r) (r_file r) (r_section r)).
(** Value and defined flag read through the object. *)
Definition read_label (t : table) (r : sref) : option (Z * bool) :=
  let '(t', o) := get_label t (r_name r) (r_file r) (r_section r) in
  match o with
  | None => None
  | Some i => option_map (fun l => (l_value l, l_defined l)) (nth_error (t_labels t') i)
  end.

(** All lookups of [r] agree with state [s]. *)
Definition shows (t : table) (r : sref) (s : symstate) : Prop :=
  match s with
  | Unknown =>
      symbol_exists t (r_name r) (r_file r) (r_section r) = false
      /\ find_equation t (r_name r) (r_file r) (r_section r) = None
      /\ read_label t r = Some (0%Z, false)
  | IsLabel v d =>
      symbol_exists t (r_name r) (r_file r) (r_section r) = true
      /\ find_equation t (r_name r) (r_file r) (r_section r) = None
      /\ read_label t r = Some (v, d)
  | IsEqu i =>
      symbol_exists t (r_name r) (r_file r) (r_section r) = true
      /\ find_equation t (r_name r) (r_file r) (r_section r) = Some i
      /\ read_label t r = None
  end.

(** The names handed out by getUniqueLabelName in a history. *)
Fixpoint generated_names (t : table) (h : list action) : list string :=
  match h with
  | [] => []
  | Generate b :: r => snd (get_unique t b) :: generated_names (act t (Generate b)) r
  | a :: r => generated_names (act t a) r
  end.
