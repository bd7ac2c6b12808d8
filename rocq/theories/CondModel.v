(** Model of conditional assembly while parsing: the condition stack of Parser/Parser.{h,cpp},
    Parser::parseCommandSequence, Parser::parseCommand, and parseDirectiveConditional of
    Parser/DirectivesParser.cpp; the conditions of equ, macro and function definitions and of the
    directives that change settings while parsing.

    The input is a list of statements.  What a statement other than a conditional does is any
    function of the top of the condition stack and of the state of the parser (symbols, macros,
    settings): the state afterwards, the command if it gives one, and whether no error was printed.
    Inclusions and macro calls are such statements, since they parse with the same stack.
    After an error the code goes on with the next statement; so does the model, but it may differ in
    how much is skipped.  Constructs that end with a directive of their own (.area, .autoregion) are
    statements [TOpen] with a number for the kind; .function is not covered. *)

Require Import ZArith List Bool.
Import ListNotations.

(** enum class ConditionalResult, Parser.h 39 *)
Inductive cres := CUnknown | CTrue | CFalse.
(** Parser::ConditionInfo, Parser.h 129-133 *)
Record info := mkInfo { in_true : bool; in_unknown : bool }.
(** Parser::pushConditionalResult, Parser.cpp 32-38: the new top *)
Definition under (i : info) (r : cres) : info :=
  mkInfo (in_true i && match r with CFalse => false | _ => true end) (in_unknown i || match r with CUnknown => true | _ => false end).
(** The result for the rest of a chain, DirectivesParser.cpp 257-269 *)
Definition opposite (r : cres) : cres := match r with CTrue => CFalse | CFalse => CTrue | CUnknown => CUnknown end.

Section Parse.
  Variables env cmd cond : Type.

  (** Commands: a single one, DummyCommand, InvalidCommand, CommandSequence, a construct with contents, CDirectiveConditional *)
  Inductive out := OCmd (c : cmd) | ODummy | OInvalid | OSeq (l : list out) | OBlock (n : nat) (l : list out) | OCond (k : cond) (a : out) (b : option out).

  (** The condition of .if, .ifdef, .ifndef, DirectivesParser.cpp 203-237: a result and what is kept for validation; a printed
      error; or failure without a message (223-231) *)
  Inductive cparse := CPOk (r : cres) (k : cond) | CPInvalid | CPNone.
  Definition condition := info -> env -> cparse.
  Definition effect := info -> env -> env * option out * bool.
  Inductive stmt := TIf (c : condition) | TElseif (c : condition) | TElse | TEndif | TOpen (n : nat) | TClose (n : nat) | TOther (f : effect).

  (** Parser: the stack with its back first, the state, what is still to be read, whether an error was printed *)
  Record pstate := mkP { p_stack : list info; p_env : env; p_rest : list stmt; p_err : bool }.
  (** Parser::isInsideTrueBlock, isInsideUnknownBlock, Parser.h 68-69.  The stack is never empty (see CondProofs). *)
  Definition top (p : pstate) : info := hd (mkInfo false false) (p_stack p).
  Definition push (r : cres) (p : pstate) : pstate := mkP (under (top p) r :: p_stack p) (p_env p) (p_rest p) (p_err p).
  Definition pop (p : pstate) : pstate := mkP (tl (p_stack p)) (p_env p) (p_rest p) (p_err p).
  Definition rest (p : pstate) (l : list stmt) : pstate := mkP (p_stack p) (p_env p) l (p_err p).
  Definition fail (p : pstate) : pstate := mkP (p_stack p) (p_env p) (p_rest p) true.
  Definition state (p : pstate) (e : env) (ok : bool) : pstate := mkP (p_stack p) e (p_rest p) (p_err p || negb ok).

  (** Terminators: none (Parser.cpp 300), those of an if block (DirectivesParser.cpp 240), of an else block (274), of a construct *)
  Inductive terms := NoTerm | IfTerm | ElseTerm | BlockTerm (n : nat).
  Definition ends (t : terms) (x : stmt) : bool :=
    match t, x with
    | IfTerm, (TElseif _ | TElse | TEndif) | ElseTerm, TEndif => true
    | BlockTerm n, TClose m => Nat.eqb n m
    | _, _ => false
    end.

  (** What parseDirectiveConditional returns, DirectivesParser.cpp 294-318 *)
  Definition result (r : cres) (k : cond) (a : out) (b : option out) : out :=
    match r with
    | CTrue => a
    | CFalse => match b with Some b => b | None => ODummy end
    | CUnknown => OCond k a b
    end.

  (** Every call has less fuel; without fuel the answer is None. *)
  Fixpoint parse_seq (fuel : nat) (t : terms) (p : pstate) {struct fuel} : option (list out * pstate) :=
    (* Parser::parseCommandSequence, Parser.cpp 107-169 *)
    match fuel with
    | O => None
    | S fuel =>
        match p_rest p with
        | [] => Some ([], match t with NoTerm => p | _ => fail p end)
        | x :: l =>
            if ends t x then Some ([], p)
            else
              match parse_command fuel x (rest p l) with
              | None => None
              | Some (o, p) =>
                  match parse_seq fuel t p with
                  | None => None
                  | Some (os, p') => Some (match o with Some o => if in_true (top p) then o :: os else os | None => os end, p')
                  end
              end
        end
    end
  with parse_command (fuel : nat) (x : stmt) (p : pstate) {struct fuel} : option (option out * pstate) :=
    (* Parser::parseCommand, Parser.cpp 859-898, with parseDirective, 219-263; a nullptr without a message becomes an error (248-249) *)
    match fuel with
    | O => None
    | S fuel =>
        match x with
        | TIf c => match parse_cond fuel c p with
                   | None => None
                   | Some (Some o, p) => Some (Some o, p)
                   | Some (None, p) => Some (Some OInvalid, fail p)
                   end
        | TOther f => let '(e, o, ok) := f (top p) (p_env p) in Some (o, state p e ok)
        | TOpen n => (* parseDirectiveArea, DirectivesParser.cpp 480-515, and parseDirectiveAutoRegion, 517-538 *)
            match parse_seq fuel (BlockTerm n) p with
            | None => None
            | Some (l, p) => Some (Some (OBlock n l), rest p (tl (p_rest p)))
            end
        | _ => Some (Some OInvalid, fail p)
        end
    end
  with parse_cond (fuel : nat) (c : condition) (p : pstate) {struct fuel} : option (option out * pstate) :=
    (* parseDirectiveConditional, DirectivesParser.cpp 195-318; None in the pair stands for nullptr *)
    match fuel with
    | O => None
    | S fuel =>
        match c (top p) (p_env p) with
        | CPInvalid => Some (Some ODummy, fail p)
        | CPNone => Some (None, p)
        | CPOk r k =>
            match parse_seq fuel IfTerm (push r p) with
            | None => None
            | Some (a, p) =>
                let p := pop p in
                match p_rest p with
                | [] => Some (None, fail p)
                | x :: l =>
                    let p := push (opposite r) (rest p l) in
                    let done := match x with
                                | TElse => match parse_seq fuel ElseTerm p with
                                           | None => None
                                           | Some (b, p) => Some (Some (Some (OSeq b)), rest p (tl (p_rest p)))
                                           end
                                | TElseif c => match parse_cond fuel c p with None => None | Some (b, p) => Some (Some b, p) end
                                | TEndif => Some (Some None, p)
                                | _ => Some (None, p)
                                end in
                    match done with
                    | None => None
                    | Some (None, p) => Some (None, pop p)
                    | Some (Some b, p) => Some (Some (result r k (OSeq a) b), pop p)
                    end
                end
            end
        end
    end.

  (** A whole file: Parser::parse, Parser.cpp 278-303, with the stack of Parser::Parser, 24-30 *)
  Definition fuel_for (l : list stmt) : nat := 3 * List.length l + 3.
  Definition parse (e : env) (l : list stmt) : option (list out * pstate) := parse_seq (fuel_for l) NoTerm (mkP [mkInfo true false] e l false).
End Parse.

Arguments OCmd {cmd cond}. Arguments ODummy {cmd cond}. Arguments OInvalid {cmd cond}. Arguments OSeq {cmd cond}. Arguments OBlock {cmd cond}. Arguments OCond {cmd cond}.
Arguments CPOk {cond}. Arguments CPInvalid {cond}. Arguments CPNone {cond}.
Arguments TIf {env cmd cond}. Arguments TElseif {env cmd cond}. Arguments TElse {env cmd cond}. Arguments TEndif {env cmd cond}. Arguments TOpen {env cmd cond}.
Arguments TClose {env cmd cond}. Arguments TOther {env cmd cond}.
Arguments mkP {env cmd cond}. Arguments p_stack {env cmd cond}. Arguments p_env {env cmd cond}. Arguments p_rest {env cmd cond}. Arguments p_err {env cmd cond}.
Arguments top {env cmd cond}. Arguments push {env cmd cond}. Arguments pop {env cmd cond}. Arguments rest {env cmd cond}. Arguments fail {env cmd cond}.
Arguments state {env cmd cond}. Arguments ends {env cmd cond}. Arguments result {cmd cond}. Arguments fuel_for {env cmd cond}.
Arguments parse_seq {env cmd cond}. Arguments parse_command {env cmd cond}. Arguments parse_cond {env cmd cond}. Arguments parse {env cmd cond}.

(** ** Statements with an effect while parsing *)

(** The equs, macros and functions defined; Architecture::current and its version, Arm.GetThumbMode; Global.nocash,
    Global.relativeInclude, Logger's errorOnWarning, Mips.GetFixLoadDelay *)
Record settings := mkSet {
  s_equs : list (nat * Z); s_macros : list nat; s_funcs : list nat; s_arch : nat; s_thumb : bool; s_nocash : bool; s_relative : bool;
  s_strict : bool; s_fixdelay : bool }.
Definition with_equs s x := mkSet x (s_macros s) (s_funcs s) (s_arch s) (s_thumb s) (s_nocash s) (s_relative s) (s_strict s) (s_fixdelay s).
Definition with_macros s x := mkSet (s_equs s) x (s_funcs s) (s_arch s) (s_thumb s) (s_nocash s) (s_relative s) (s_strict s) (s_fixdelay s).
Definition with_funcs s x := mkSet (s_equs s) (s_macros s) x (s_arch s) (s_thumb s) (s_nocash s) (s_relative s) (s_strict s) (s_fixdelay s).
Definition with_mode s a x := mkSet (s_equs s) (s_macros s) (s_funcs s) a x (s_nocash s) (s_relative s) (s_strict s) (s_fixdelay s).
Definition with_nocash s x := mkSet (s_equs s) (s_macros s) (s_funcs s) (s_arch s) (s_thumb s) x (s_relative s) (s_strict s) (s_fixdelay s).
Definition with_relative s x := mkSet (s_equs s) (s_macros s) (s_funcs s) (s_arch s) (s_thumb s) (s_nocash s) x (s_strict s) (s_fixdelay s).
Definition with_strict s x := mkSet (s_equs s) (s_macros s) (s_funcs s) (s_arch s) (s_thumb s) (s_nocash s) (s_relative s) x (s_fixdelay s).
Definition with_fixdelay s x := mkSet (s_equs s) (s_macros s) (s_funcs s) (s_arch s) (s_thumb s) (s_nocash s) (s_relative s) (s_strict s) x.

(** Commands of the sample language: an instruction, read for the architecture and mode in force *)
Inductive code := Instr (n arch : nat) (thumb : bool) | Switch (arch : nat) (thumb : bool).
Definition reaction := info -> settings -> settings * option (out code nat) * bool.
(** Parser::checkEquLabel, Parser.cpp 361-393, outside of macro analysis and for a value without errors *)
Definition do_equ (n : nat) (v : Z) : reaction := fun i s =>
  if negb (in_true i) then (s, None, true)
  else if in_unknown i then (s, None, false)
  else if existsb (fun p => Nat.eqb (fst p) n) (s_equs s) then (s, None, false)
  else (with_equs s ((n, v) :: s_equs s), None, true).
(** Parser::checkMacroDefinition, Parser.cpp 564-596, for a macro with .endmacro.  An error makes checkMacroDefinition return false with the
    tokens consumed, and parseCommand give an invalid command. *)
Definition do_macro (n : nat) : reaction := fun i s =>
  if in_unknown i then (s, Some OInvalid, false)
  else if negb (in_true i) then (s, None, true)
  else if existsb (Nat.eqb n) (s_macros s) then (s, Some OInvalid, false)
  else (with_macros s (n :: s_macros s), None, true).
(** Parser::checkExpFuncDefinition, Parser.cpp 465-494 *)
Definition do_func (n : nat) : reaction := fun i s =>
  if in_unknown i then (s, Some OInvalid, false)
  else if negb (in_true i) then (s, None, true)
  else if existsb (Nat.eqb n) (s_funcs s) then (s, Some OInvalid, false)
  else (with_funcs s (n :: s_funcs s), None, true).
(** parseDirectiveThumb, parseDirectiveArm, ArmParser.cpp 38-48; parseDirectiveArmArch and the others, DirectivesParser.cpp 408-478 *)
Definition do_thumb (b : bool) : reaction := fun _ s => (with_mode s (s_arch s) b, Some (OCmd (Switch (s_arch s) b)), true).
Definition do_arch (a : nat) (b : bool) : reaction := fun _ s => (with_mode s a b, Some (OCmd (Switch a b)), true).
(** parseDirectiveErrorWarning, parseDirectiveRelativeInclude, parseDirectiveNocash, DirectivesParser.cpp 550-605; parseDirectiveFixLoadDelay, MipsParser.cpp 136-140 *)
Definition do_strict (b : bool) : reaction := fun _ s => (with_strict s b, Some ODummy, true).
Definition do_relative (b : bool) : reaction := fun _ s => (with_relative s b, Some ODummy, true).
Definition do_nocash (b : bool) : reaction := fun _ s => (with_nocash s b, Some ODummy, true).
Definition do_fixdelay : reaction := fun _ s => (with_fixdelay s true, Some ODummy, true).
(** Parser::parseCommand, 885: Architecture::current().parseOpcode *)
Definition do_instr (n : nat) : reaction := fun _ s => (s, Some (OCmd (Instr n (s_arch s) (s_thumb s))), true).
(** parseDirectiveInclude, DirectivesParser.cpp 730-732, and parseMacroCall, Parser.cpp 736-738: not parsed in a false block (a macro is,
    within an unknown one); else the statements are parsed with the stack as it is *)
Definition do_include (l : list (stmt settings code nat)) : reaction := fun i s =>
  if negb (in_true i) then (s, Some ODummy, true)
  else match parse_seq (fuel_for l) NoTerm (mkP [i] s l false) with
       | Some (os, p) => (p_env p, Some (OSeq os), negb (p_err p))
       | None => (s, None, false)
       end.
(** .if with a constant, an equ, or an expression with labels not yet known (number k) *)
Definition if_const (b : bool) : condition settings nat := fun _ _ => CPOk (if b then CTrue else CFalse) 0.
Definition if_equ (n : nat) : condition settings nat := fun _ s =>
  match find (fun p => Nat.eqb (fst p) n) (s_equs s) with
  | Some (_, v) => CPOk (if Z.eqb v 0 then CFalse else CTrue) 0
  | None => CPOk CUnknown n
  end.
Definition if_label (k : nat) : condition settings nat := fun _ _ => CPOk CUnknown k.
(** .elseifdef with something that is no identifier, DirectivesParser.cpp 223-226 *)
Definition if_nothing : condition settings nat := fun _ _ => CPNone.
