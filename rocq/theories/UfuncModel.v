(** Functions defined with .expfunc.

    Files: Core/ExpressionFunctionHandler.cpp (addUserFunction 114-174, execute 203-209), Parser/Parser.cpp (parseFunctionDeclaration 401-427,
    checkExpFuncDefinition 429-495), Parser/Tokenizer.cpp (processElement 49-124, registerReplacementString, registerReplacementInteger,
    registerReplacementFloat 206-245).

    Simplified: no equ defined after the function occurs in its content (equs known at the definition are replaced there).  Functions of the
    architecture and the built in ones go before user functions, which are refused if the name is taken.  Calls deeper than a given bound give an
    error of their own; the program itself has no bound and ends when the stack does. *)

Require Import ZArith Bool List String.
From Verif Require Import ExprModel ExprFuncModel ParseModel.
Import ListNotations.
Local Open Scope string_scope.
Local Open Scope list_scope.

(** What addUserFunction keeps, 114-117. *)
Record udef := mkUdef { ud_name : string; ud_params : list string; ud_body : list token }.

(** registerReplacementInteger, registerReplacementFloat, registerReplacementString, Tokenizer.cpp 206-245; the switch of 141-156. *)
Definition value_token (v : value) : option token :=
  match v with VInt z => Some (TInt z) | VFloat f => Some (TFloat f) | VStr s => Some (TStr s) | VInvalid => None end.
(** The first replacement of the name, Tokenizer.cpp 60-80. *)
Fixpoint replacement (l : list (string * value)) (n : string) : option value :=
  match l with [] => None | (p, v) :: l => if String.eqb p n then Some v else replacement l n end.
Definition replace (l : list (string * value)) (t : token) : token :=
  match t with
  | TIdent n => match replacement l n with Some v => match value_token v with Some t => t | None => t end | None => t end
  | _ => t
  end.
Definition instantiate (d : udef) (vs : list value) : list token := map (replace (combine (ud_params d) vs)) (ud_body d).

Definition msg_not_parsed := Err "Failed to parse user function expression".
Definition msg_unconsumed := Err "Unconsumed tokens after parsing user function expresion".
(** No message of the program: see above. *)
Definition msg_too_deep := Err "too deep".

Section Functions.
  (** The functions of the architecture, those of the program, and the file and section at the time of the evaluation. *)
  Variable arch : list (string * func_entry).
  Variable defs : list udef.
  Variables file section : Z.

  Definition entries (run : udef -> estate -> list value -> outcome value) : list (string * (nat * (estate -> list value -> outcome value))) :=
    map (fun d => (ud_name d, (List.length (ud_params d), run d))) defs.
  (** ExpressionFunctionHandler::find, 20-24. *)
  Definition known (n : string) : bool :=
    match make_registry arch (entries (fun _ _ _ => OUb)) n with Some _ => true | None => false end.
  (** The executor after its parameters are evaluated, 133-170; the folding is in the constructor of Expression. *)
  Definition execute (reg : registry) (d : udef) (st : estate) (vs : list value) : outcome value :=
    match parse_expression known file section (instantiate d vs) with
    | None => OVal VInvalid [msg_not_parsed]
    | Some (e, rest) =>
      obind (simplify reg st false e) (fun '(e, _) =>
      match rest with [] => eval reg st e | _ => OVal VInvalid [msg_unconsumed] end)
    end.
  (** The functions with at most so many calls inside of each other. *)
  Fixpoint functions (depth : nat) : registry :=
    make_registry arch (entries match depth with
                                | O => fun _ _ _ => OVal VInvalid [msg_too_deep]
                                | S k => fun d st vs => execute (functions k) d st vs
                                end).
End Functions.

(** ** Definitions *)
(** parseFunctionDeclaration, the loop of 412-422 (a comma is not needed); the tokens behind the bracket. *)
Fixpoint declared (fuel : nat) (acc : list string) (ts : list token) : option (list string * list token) :=
  match fuel with
  | O => None
  | S fuel =>
    match ts with
    | TRParen :: ts => Some (rev acc, ts)
    | _ => match (match acc, ts with _ :: _, TComma :: ts => ts | _, _ => ts end) with
           | TIdent p :: ts => declared fuel (p :: acc) ts
           | _ => None
           end
    end
  end.
Definition declaration (ts : list token) : option (string * list string * list token) :=
  match ts with
  | TIdent n :: TLParen :: ts => match declared (S (List.length ts)) [] ts with Some (ps, ts) => Some (n, ps, ts) | None => None end
  | _ => None
  end.
(** The tokens in front of the separator or the end, 459-463. *)
Fixpoint content (ts : list token) : list token * list token :=
  match ts with
  | [] => ([], [])
  | TSeparator :: _ => ([], ts)
  | t :: ts => let (c, r) := content ts in (t :: c, r)
  end.
Inductive defined := DWrong (message : string) | DIgnored (rest : list token) | DAdded (d : udef) (rest : list token).
(** checkExpFuncDefinition from the token behind .expfunc, 441-494. *)
Definition define (in_unknown in_true : bool) (find : string -> bool) (ts : list token) : defined :=
  match declaration ts with
  | Some (n, ps, TComma :: ts) =>
    let (c, rest) := content ts in
    if in_unknown then DWrong "Expression function definition not allowed inside of block with non-trivial condition"
    else if negb in_true then DIgnored rest
    else match rest with
         | TSeparator :: rest => if find n then DWrong "Expression function already declared" else DAdded (mkUdef n ps c) rest
         | _ => DWrong ".expfunc directive not terminated"
         end
  | _ => DWrong "Invalid expression function declaration"
  end.
