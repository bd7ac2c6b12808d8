(** User functions: what a call means. *)

Require Import ZArith Bool List String.
From Verif Require Import ExprModel ExprFuncModel ParseModel UfuncModel.
Import ListNotations.
Local Open Scope string_scope.
Local Open Scope list_scope.

(** What the parameters stand for. *)
Definition env := string -> option value.
Definition none : env := fun _ => None.
Definition bound (ps : list string) (vs : list value) : env := replacement (combine ps vs).

(** The expression with the values in place of the parameters. *)
Fixpoint in_place (r : env) (e : expr) : expr :=
  match e with
  | EIdent n f s => match r n with Some v => const_expr v | None => e end
  | EUn o a => EUn o (in_place r a)
  | EBin o a b => EBin o (in_place r a) (in_place r b)
  | ECond c a b => ECond (in_place r c) (in_place r a) (in_place r b)
  | EToString a => EToString (in_place r a)
  | ECall n l => ECall n (map (in_place r) l)
  | _ => e
  end.

Definition host_of (st : estate) : host := c_host (s_ctx st).

Section Meaning.
  (** Functions that are no user functions; user functions with their contents as expressions; the state. *)
  Variable base : string -> option func_entry.
  Variable user : string -> option (list string * expr).
  Variable st : estate.

  Inductive means : env -> expr -> value -> Prop :=
  | m_invalid r : means r EInvalid VInvalid
  | m_int r z : means r (EInt z) (VInt z)
  | m_float r f : means r (EFloat f) (VFloat f)
  | m_str r s : means r (EStr s) (VStr s)
  | m_pos r : means r EPos (VInt (s_virtual st))
  | m_param r n f s v : r n = Some v -> means r (EIdent n f s) v
  | m_label r n f s l : r n = None -> s_label st n f s = Some l -> l_defined l = true -> means r (EIdent n f s) (VInt (l_value l))
  | m_un r o a x v ms : means r a x -> apply_un o x = OVal v ms -> means r (EUn o a) v
  | m_bin r o a b x y v ms : means r a x -> means r b y -> apply_bin (host_of st) o x y = OVal v ms -> means r (EBin o a b) v
  | m_yes r c a b x v : means r c x -> v_eq (host_of st) x (VInt 0) = false -> means r a v -> means r (ECond c a b) v
  | m_no r c a b x v : means r c x -> v_eq (host_of st) x (VInt 0) = true -> means r b v -> means r (ECond c a b) v
  | m_text r a t ms : to_text (host_of st) (in_place r a) = OVal t ms -> means r (EToString a) (VStr t)
  | m_value r n l vs fe f v ms : base n = Some fe -> fe_fun fe = FValue f -> (fe_min fe <= List.length l <= fe_max fe)%nat ->
      means_all r l vs -> f st vs = OVal v ms -> means r (ECall n l) v
  | m_labels r n l ls fe f v ms : base n = Some fe -> fe_fun fe = FLabel f -> (fe_min fe <= List.length l <= fe_max fe)%nat ->
      Forall2 (fun a x => exists n f s, a = EIdent n f s /\ r n = None /\ x = s_label st n f s) l ls -> f st ls = OVal v ms -> means r (ECall n l) v
  (** A user function: its content, where the parameters stand for the values of the arguments. *)
  | m_user r n l vs ps body v : base n = None -> user n = Some (ps, body) -> List.length l = List.length ps ->
      means_all r l vs -> means (bound ps vs) body v -> means r (ECall n l) v
  with means_all : env -> list expr -> list value -> Prop :=
  | m_nil r : means_all r [] []
  | m_cons r a v l vs : means r a v -> v <> VInvalid -> means_all r l vs -> means_all r (a :: l) (v :: vs).
End Meaning.

(** ** Definitions *)
(** Names with or without commas between them. *)
Inductive names_written : list string -> list token -> Prop :=
| nw_none : names_written [] []
| nw_first p ps ts : more_written ps ts -> names_written (p :: ps) (TIdent p :: ts)
with more_written : list string -> list token -> Prop :=
| mw_none : more_written [] []
| mw_comma p ps ts : more_written ps ts -> more_written (p :: ps) (TComma :: TIdent p :: ts)
| mw_plain p ps ts : more_written ps ts -> more_written (p :: ps) (TIdent p :: ts).
