(** What a template stands for: a text with gaps, each gap with the name of the value that belongs there.
    Independent of the way the values are put in. *)

Require Import ZArith String Ascii List Bool.
From Verif Require Import ExprModel LexModel TplModel.
Import ListNotations.
Local Open Scope char_scope.
Local Open Scope list_scope.

(** A piece of a template: text, or a gap with a name. *)
Inductive piece := Lit (s : chars) | Gap (n : chars).

(** The template as it is written, with %name% for a gap. *)
Fixpoint written (ps : list piece) : chars :=
  match ps with
  | [] => []
  | Lit s :: l => s ++ written l
  | Gap n :: l => ("%" :: n ++ ["%"]) ++ written l
  end.

(** Reading: the percent signs stand alternately at the start and at the end of a gap. *)
Fixpoint parts (s : chars) : list chars :=
  match s with
  | [] => [[]]
  | c :: r =>
      let l := parts r in
      if Ascii.eqb c "%" then [] :: l else match l with p :: q => (c :: p) :: q | [] => [[c]] end
  end.
Fixpoint alternate (gap : bool) (l : list chars) : list piece :=
  match l with
  | [] => []
  | p :: q => (if gap then Gap p else Lit p) :: alternate (negb gap) q
  end.
Definition pieces (t : chars) : list piece := alternate false (parts t).

(** The value with a name: [names] and [values] have the same order. *)
Fixpoint value_of (names values : list chars) (n : chars) : option chars :=
  match names, values with
  | m :: ns, v :: vs => if list_eq_dec ascii_dec m n then Some v else value_of ns vs n
  | _, _ => None
  end.

(** The template with all gaps filled at once; a gap without value stays as it is written. *)
Fixpoint filled (names values : list chars) (ps : list piece) : chars :=
  match ps with
  | [] => []
  | Lit s :: l => s ++ filled names values l
  | Gap n :: l => match value_of names values n with Some v => v | None => "%" :: n ++ ["%"] end ++ filled names values l
  end.

(** A text that has nothing that looks like a gap: two percent signs with only letters and digits, or nothing,
    between them. *)
Definition quiet (v : chars) : Prop :=
  forall a n b, v = a ++ "%" :: n ++ "%" :: b -> forallb is_alnum n = true -> False.

(** A text without percent sign. *)
Definition no_percent (s : chars) : bool := forallb (fun c => negb (Ascii.eqb c "%")) s.

Definition text (s : string) : chars := list_ascii_of_string s.

(** The names, numbers and texts in an expression. *)
Fixpoint atoms_quiet (h : host) (e : expr) : Prop :=
  match e with
  | EInvalid | EInt _ | EPos | ECall _ _ => True
  | EFloat f => quiet (text (h_fmtg h f))
  | EIdent n _ _ => quiet (text n)
  | EStr s => quiet (text s)
  | EUn _ a | EToString a => atoms_quiet h a
  | EBin _ a b => atoms_quiet h a /\ atoms_quiet h b
  | ECond c a b => atoms_quiet h c /\ atoms_quiet h a /\ atoms_quiet h b
  end.
