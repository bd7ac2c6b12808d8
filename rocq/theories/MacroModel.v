(** Macros: .macro definitions, the arguments of calls, and the labels of a macro.

    File: Parser/Parser.cpp (parseExpressionList 53-98, checkMacroDefinition 497-598, extractMacroParameter 600-666, parseMacroCall 668-786,
    parseLabel 793-815).  Names and replacement of tokens: SymModel.v (macro_label_name) and ExpandModel.v (drain).

    Simplified: the tokens are those delivered by the tokenizer, after equs are replaced.  Labels are looked for at the start of statements
    only; contents with equ declarations or further macro definitions are left out.  The commands a content is parsed to are not part of this
    file. *)

Require Import ZArith NArith Bool List String.
From Verif Require Import ExprModel ParseModel SymModel ExpandModel.
Import ListNotations.
Local Open Scope string_scope.
Local Open Scope list_scope.

(** ** Arguments *)

(** extractMacroParameter, the loop of 612-645 with the three depths: the tokens in front of the separator or comma that ends the argument, the
    depth of the round brackets there, and the tokens from it on.  None: there is no end; peekToken gives an invalid token for ever
    (Tokenizer.cpp 135-151), so the loop does not end either. *)
Fixpoint argument (p b k : Z) (ts : list token) : option (list token * Z * list token) :=
  match ts with
  | [] => None
  | t :: r =>
    let go p b k := match argument p b k r with Some (a, d, rest) => Some (t :: a, d, rest) | None => None end in
    match t with
    | TSeparator => Some ([], p, ts)
    | TComma => if (p =? 0)%Z && (b =? 0)%Z && (k =? 0)%Z then Some ([], p, ts) else go p b k
    | TLParen => go (p + 1)%Z b k
    | TRParen => go (p - 1)%Z b k
    | TLBrace => go p (b + 1)%Z k
    | TRBrace => go p (b - 1)%Z k
    | TLBrack => go p b (k + 1)%Z
    | TRBrack => go p b (k - 1)%Z
    | _ => go p b k
    end
  end.

Inductive called (A : Type) := Wrong (message : string) | Endless | Fine (a : A).
Arguments Wrong {A}. Arguments Endless {A}. Arguments Fine {A}.

(** extractMacroParameter, 600-666. *)
Definition extract (ts : list token) : called (list token * list token) :=
  match argument 0 0 0 ts with
  | None => Endless
  | Some (a, d, rest) =>
    if negb (d =? 0)%Z then Wrong "Unbalanced parentheses in macro parameter"
    else match a with [] => Wrong "Empty macro argument" | _ => Fine (a, rest) end
  end.

(** The loop of parseMacroCall, 684-712; [first] is i == 0. *)
Fixpoint arguments (params : list string) (first : bool) (ts : list token) : called (list (list token) * list token) :=
  match params with
  | [] => Fine ([], ts)
  | _ :: params =>
    match peek ts with
    | TSeparator => Wrong "Too few macro arguments"
    | t =>
      let next := fun ts =>
        match extract ts with
        | Fine (a, rest) =>
          match arguments params false rest with Fine (l, rest) => Fine (a :: l, rest) | Wrong m => Wrong m | Endless => Endless end
        | Wrong m => Wrong m
        | Endless => Endless
        end in
      if first then next ts
      else match t with TComma => next (tl ts) | _ => Wrong "Macro arguments not comma-separated" end
    end
  end.

(** The loop over superfluous arguments, 717-725: false if it does not end.  The result of extractMacroParameter is not looked at. *)
Fixpoint superfluous (fuel : nat) (ts : list token) : bool :=
  match fuel with
  | O => true
  | S fuel =>
    match ts with
    | TComma :: ts => match argument 0 0 0 ts with Some (_, _, rest) => superfluous fuel rest | None => false end
    | _ => true
    end
  end.

(** parseMacroCall from the token behind the name to 735: the arguments in the order of the parameters and the tokens behind the call. *)
Definition call_arguments (params : list string) (ts : list token) : called (list (list token) * list token) :=
  match arguments params true ts with
  | Fine (l, ts) =>
    match ts with
    | TComma :: _ => if superfluous (S (List.length ts)) ts then Wrong "Too many macro arguments" else Endless
    | TSeparator :: rest => Fine (l, rest)
    | _ => Wrong "Macro call not terminated"
    end
  | r => r
  end.

(** ** Definitions *)

(** ParserMacro, Parser.h 30-37. *)
Record macro := mkMacro { m_name : string; m_params : list string; m_content : list token; m_labels : list string; m_counter : N }.

Section Definitions.
  (** As for parse_expression: the known functions, the file and the section. *)
  Variable isfun : string -> bool.
  Variables file section : Z.

  (** parseExpressionList, 53-98, without bounds on the number; on failure the position does not matter to the caller. *)
  Fixpoint expressions (fuel : nat) (ts : list token) : option (list expr * list token) :=
    match fuel with
    | O => None
    | S fuel =>
      match parse_expression isfun file section ts with
      | Some (e, TComma :: ts) => match expressions fuel ts with Some (l, rest) => Some (e :: l, rest) | None => None end
      | Some (e, rest) => Some ([e], rest)
      | None => None
      end
    end.
  (** evaluateIdentifier, Core/Expression.cpp 861-868, and the loop of 534-541. *)
  Fixpoint identifiers (l : list expr) : option (list string) :=
    match l with
    | [] => Some []
    | EIdent n _ _ :: l => match identifiers l with Some ns => Some (n :: ns) | None => None end
    | _ => None
    end.
  (** The loop of 551-561: the content and the tokens behind .endmacro. *)
  Fixpoint content (ts : list token) : option (list token * list token) :=
    match ts with
    | [] => None
    | t :: r => if is_name ".endmacro" t then Some ([], r)
                else match content r with Some (c, rest) => Some (t :: c, rest) | None => None end
    end.
  Inductive defined := DWrong (message : string) | DIgnored | DAdded (m : macro) (rest : list token).
  (** checkMacroDefinition behind .macro, 507-597; [known] are the names of macros.  What follows an ignored definition is left out. *)
  Definition define (initializing in_unknown in_true : bool) (known : string -> bool) (ts : list token) : defined :=
    if initializing then DWrong "Nested macro definitions not allowed"
    else match expressions (S (List.length ts)) ts with
    | None => DWrong "Parameter failure"
    | Some (l, ts) =>
      match identifiers l with
      | Some (n :: ps) =>
        match ts with
        | TSeparator :: ts =>
          if in_unknown then DWrong "Macro definition not allowed inside of block with non-trivial condition"
          else if negb in_true then DIgnored
          else if known n then DWrong "Macro already defined"
          else match content ts with
               | None => DWrong "Macro not terminated"
               | Some (c, TSeparator :: rest) => DAdded (mkMacro n ps c [] 0) rest
               | Some _ => DWrong "Endmacro directive not terminated"
               end
        | _ => DWrong "Macro directive not terminated"
        end
      | _ => DWrong "unrecognised"
      end
    end.
End Definitions.

(** ** Labels *)

(** The labels found while the content is parsed with initializingMacro set, 744-762 and 797-804; [start]: at the start of a statement. *)
Fixpoint labels (start : bool) (ts : list token) : list string :=
  match ts with
  | [] => []
  | TSeparator :: r => labels true r
  | TIdent x :: r =>
    match r with
    | TColon :: r' => if start then x :: labels true r' else labels false r'
    | _ => labels false r
    end
  | _ :: r => labels false r
  end.

(** identifierParameters, 682 and 704-705. *)
Definition single_names (args : list (list token)) : list string :=
  flat_map (fun a => match a with [TIdent n] => [n] | _ => [] end) args.
Definition mem (x : string) (l : list string) : bool := existsb (String.eqb x) l.

(** The replacements of the parameters, 708, and of the labels, 765-782. *)
Definition parameter_replacements (m : macro) (args : list (list token)) : list (string * list token) := combine (m_params m) args.
Definition label_replacements (m : macro) (labs : list string) (args : list (list token)) : list (string * list token) :=
  map (fun l => (l, [TIdent (macro_label_name (m_name m) l (m_counter m))])) (filter (fun l => negb (mem l (single_names args))) labs).

(** The tokens a tokenizer delivers of a content: drain with enough fuel. *)
Definition delivers (equ : string -> option (list token)) (reps : list (string * list token)) (ts out : list token) : Prop :=
  exists fuel, drain fuel (mkEnv reps equ) (fun _ => false) (unchecked ts) = DDone out.

(** One call that is not in a false block, 746-786: the macro afterwards and the tokens that are parsed.  The counter is a size_t. *)
Inductive instantiates (equ : string -> option (list token)) (m : macro) (args : list (list token)) : macro -> list token -> Prop :=
| inst_first : forall out0 out,
    m_counter m = 0%N ->
    delivers equ (parameter_replacements m args) (m_content m) out0 ->
    delivers equ (parameter_replacements m args ++ label_replacements m (labels true out0) args) (m_content m) out ->
    instantiates equ m args (mkMacro (m_name m) (m_params m) (m_content m) (labels true out0) 1) out
| inst_later : forall out,
    m_counter m <> 0%N ->
    delivers equ (parameter_replacements m args ++ label_replacements m (m_labels m) args) (m_content m) out ->
    instantiates equ m args
      (mkMacro (m_name m) (m_params m) (m_content m) (m_labels m) ((m_counter m + 1) mod 2 ^ 64)) out.

(** The calls of a macro in the order of the source, with the tokens each of them gives. *)
Inductive calls (equ : string -> option (list token)) : macro -> list (list (list token)) -> list (list token) -> Prop :=
| calls_nil : forall m, calls equ m [] []
| calls_cons : forall m args m' out l outs,
    instantiates equ m args m' out -> calls equ m' l outs -> calls equ m (args :: l) (out :: outs).
