(** Macros as a user reads them: arguments are separated by commas outside of brackets; a call stands for the content with the arguments in place of
    the parameters and names of its own for the labels of the content. *)

Require Import ZArith List String.
From Verif Require Import ParseModel.
Import ListNotations.

Definition bracket (t : token) : Prop := In t [TLParen; TRParen; TLBrace; TRBrace; TLBrack; TRBrack].

(** The text of an argument ([top] = true) or of what stands in brackets: brackets are nested, commas only inside of them. *)
Inductive text : bool -> list token -> Prop :=
| text_nil : forall top, text top []
| text_token : forall top t l, ~ bracket t -> t <> TSeparator -> (top = true -> t <> TComma) -> text top l -> text top (t :: l)
| text_round : forall top a l, text false a -> text top l -> text top (TLParen :: a ++ TRParen :: l)
| text_curly : forall top a l, text false a -> text top l -> text top (TLBrace :: a ++ TRBrace :: l)
| text_square : forall top a l, text false a -> text top l -> text top (TLBrack :: a ++ TRBrack :: l).

(** Pieces with commas between them. *)
Fixpoint separated (l : list (list token)) : list token :=
  match l with
  | [] => []
  | [a] => a
  | a :: l => a ++ TComma :: separated l
  end.

(** The names behind .macro. *)
Definition header (ns : list string) : list token := separated (map (fun n => [TIdent n]) ns).

(** Opening less closing brackets. *)
Fixpoint depth (o c : token -> bool) (l : list token) : Z :=
  match l with
  | [] => 0
  | t :: l => ((if o t then 1 else if c t then -1 else 0) + depth o c l)%Z
  end.
Definition round (l : list token) : Z :=
  depth (fun t => match t with TLParen => true | _ => false end) (fun t => match t with TRParen => true | _ => false end) l.
Definition curly (l : list token) : Z :=
  depth (fun t => match t with TLBrace => true | _ => false end) (fun t => match t with TRBrace => true | _ => false end) l.
Definition square (l : list token) : Z :=
  depth (fun t => match t with TLBrack => true | _ => false end) (fun t => match t with TRBrack => true | _ => false end) l.
(** What is accepted as an argument. *)
Definition counted (a : list token) : Prop :=
  a <> [] /\ ~ In TSeparator a /\ round a = 0%Z /\
  forall u v, a = u ++ TComma :: v -> ~ (round u = 0 /\ curly u = 0 /\ square u = 0)%Z.

(** The curly and square brackets are as many opening as closing ones. *)
Definition closed (a : list token) : Prop := (curly a = 0 /\ square a = 0)%Z.

(** All arguments in front of another one are closed. *)
Fixpoint ordered (l : list (list token)) : Prop :=
  match l with [] => True | [a] => counted a | a :: l => counted a /\ closed a /\ ordered l end.

(** The meaning of a call: [value] of the parameters, [own] labels with their names in this call. *)
Definition meaning (value : string -> option (list token)) (own : string -> option string) (t : token) : list token :=
  match t with
  | TIdent x => match value x with
                | Some a => a
                | None => match own x with Some y => [TIdent y] | None => [t] end
                end
  | _ => [t]
  end.

(** Behind the tokens a statement starts; [here]: one starts in front of them. *)
Inductive at_start : bool -> list token -> Prop :=
| start_here : at_start true []
| start_separator : forall here u, at_start true u -> at_start here (TSeparator :: u)
| start_label : forall x u, at_start true u -> at_start true (TIdent x :: TColon :: u)
| start_other : forall here t u, t <> TSeparator -> at_start false u -> at_start here (t :: u).
(** The content has the label. *)
Definition declares (c : list token) (x : string) : Prop := exists u v, c = u ++ TIdent x :: TColon :: v /\ at_start true u.

(** The argument for a parameter. *)
Fixpoint bound (params : list string) (args : list (list token)) (x : string) : option (list token) :=
  match params, args with
  | p :: params, a :: args => if String.eqb p x then Some a else bound params args x
  | _, _ => None
  end.

(** Names that the arguments of a call give to labels of the content. *)
Definition names_label (params : list string) (c : list token) (args : list (list token)) (x : string) : Prop :=
  exists p, declares c p /\ bound params args p = Some [TIdent x].

(** What the calls stand for in the order of the source, the first of them with the given number. *)
Fixpoint texts (params : list string) (c : list token) (own : nat -> string -> option string) (k : nat) (l : list (list (list token)))
  : list (list token) :=
  match l with
  | [] => []
  | args :: l => flat_map (meaning (bound params args) (own k)) c :: texts params c own (S k) l
  end.

(** Calls whose arguments do not interfere with each other: *)
Record apart (params : list string) (c : list token) (l : list (list (list token))) : Prop := {
  (** as many arguments as parameters, none of them empty or with a colon or the end of a statement; *)
  ap_form : forall args, In args l -> List.length args = List.length params /\
    Forall (fun a => a <> [] /\ ~ In TColon a /\ ~ In TSeparator a) args;
  (** an argument that names a label is a name; *)
  ap_name : forall args x a, In args l -> declares c x -> bound params args x = Some a -> exists y, a = [TIdent y];
  (** no argument mentions a label of the macro itself; *)
  ap_own : forall args a y, In args l -> In a args -> In (TIdent y) a -> declares c y -> In y params;
  (** behind its first token no argument mentions a parameter or a name that the first call gave to a label, *)
  ap_tail : forall args a y, In args l -> In a args -> In (TIdent y) (tl a) ->
    ~ In y params /\ ~ names_label params c (hd [] l) y;
  (** and neither does the content mention such a name. *)
  ap_content : forall y, In (TIdent y) c -> ~ In y params -> ~ names_label params c (hd [] l) y }.
