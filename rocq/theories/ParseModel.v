(** Model of the expression parser, Parser/ExpressionParser.cpp.

    The token stream is the list of tokens that the tokenizer still has to deliver, after equ and
    macro parameter expansion (Tokenizer::processElement; modelled in TokModel.v).  Line, column
    and original text of a token play no role in parsing an expression and are left out. *)

Require Import ZArith List String Bool.
From Coq Require Import Floats.SpecFloat.
From Verif Require Import ExprModel.
Import ListNotations.

(** Parser/Tokenizer.h 13-57 (TokenType) together with the value each kind carries. *)
Inductive token : Type :=
| TInvalid | TIdent (n : string) | TInt (z : Z) | TStr (s : string) | TFloat (f : spec_float)
| TLParen | TRParen | TPlus | TMinus | TMult | TDiv | TMod | TCaret | TTilde
| TLeftShift | TRightShift | TLess | TGreater | TLessEqual | TGreaterEqual | TEqual | TNotEqual
| TBitAnd | TBitOr | TLogAnd | TLogOr | TExclamation | TQuestion | TColon | TLBrack | TRBrack
| TComma | TAssign | TEqu | TEquValue (s : string) | THash | TLBrace | TRBrace | TDollar
| TNumberString (s : string) | TDegree | TSeparator.

(** Result of one parsing function: the tree, or nullptr; in both cases the tokens not consumed
    (a failing function does not give tokens back).  [PFuel]: the recursion bound of the model was
    hit; [parse_fuel_enough] in ParseProofs.v shows that [parse_expression] never does. *)
Inductive pres : Type :=
| POk (e : expr) (rest : list token)
| PFail (rest : list token)
| PFuel.

(** The parsing functions.  [NBin n] for n = 1 .. 10 is multiplicativeExpression (108),
    additiveExpression (147), shiftExpression (183), relationalExpression (219),
    equalityExpression (260), andExpression (296), exclusiveOrExpression (316),
    inclusiveOrExpression (336), logicalAndExpression (356), logicalOrExpression (376);
    [NLoop n e] is the loop of that function with [exp] = e; [NBin 0] is unaryExpression (80).
    [NArgs f acc] is the loop of postfixExpression (60-70) with the parameters read so far. *)
Inductive nonterm : Type :=
| NPrimary | NPostfix | NArgs (f : string) (acc : list expr)
| NBin (n : nat) | NLoop (n : nat) (e : expr) | NExpr.

(** The operator that level [n] recognises at a token: the switches and while conditions of lines
    117-130, 156-166, 192-202, 228-244, 269-279, 302, 322, 342, 362, 382. *)
Definition op_at (n : nat) (t : token) : option binop :=
  match n, t with
  | 1, TMult => Some BMult | 1, TDiv => Some BDiv | 1, TMod => Some BMod
  | 2, TPlus => Some BAdd | 2, TMinus => Some BSub
  | 3, TLeftShift => Some BShl | 3, TRightShift => Some BShr
  | 4, TLess => Some BLt | 4, TLessEqual => Some BLe
  | 4, TGreater => Some BGt | 4, TGreaterEqual => Some BGe
  | 5, TEqual => Some BEq | 5, TNotEqual => Some BNe
  | 6, TBitAnd => Some BAnd
  | 7, TCaret => Some BXor
  | 8, TBitOr => Some BOr
  | 9, TLogAnd => Some BLogAnd
  | 10, TLogOr => Some BLogOr
  | _, _ => None
  end%nat.

(** The switch of unaryExpression, 91-105. *)
Definition unary_at (t : token) (e : expr) : option expr :=
  match t with
  | TPlus => Some e
  | TMinus => Some (EUn UNeg e)
  | TTilde => Some (EUn UBitNot e)
  | TExclamation => Some (EUn ULogNot e)
  | TDegree => Some (EToString e)
  | _ => None
  end.

(** peekToken(0) and nextToken at the end of the stream give a token of type Invalid and do not
    move, Tokenizer.cpp 128-150. *)
Definition peek (ts : list token) : token := match ts with t :: _ => t | [] => TInvalid end.

Section Parser.
  (** ExpressionFunctionHandler::find, and the file and section an identifier is resolved in
      (ExpressionInternal(Identifier), Core/Expression.cpp 435-441). *)
  Variable isfun : string -> bool.
  Variables file section : Z.

  Fixpoint parse (fuel : nat) (nt : nonterm) (ts : list token) {struct fuel} : pres :=
    match fuel with
    | O => PFuel
    | S k =>
      match nt with
      (* primaryExpression, 8-48 *)
      | NPrimary =>
          match ts with
          | TFloat f :: r => POk (EFloat f) r
          | TIdent n :: r => POk (if String.eqb n "." then EPos else EIdent n file section) r
          | TStr s :: r => POk (EStr s) r
          | TInt z :: r => POk (EInt z) r
          | TLParen :: r =>
              match parse k NExpr r with
              | POk e (TRParen :: r') => POk e r'
              | POk _ r' => PFail (tl r')
              | PFail r' => PFail (tl r')
              | PFuel => PFuel
              end
          | _ => PFail ts
          end
      (* postfixExpression, 50-78 *)
      | NPostfix =>
          match ts with
          | TIdent n :: TLParen :: r => if isfun n then parse k (NArgs n []) r else parse k NPrimary ts
          | _ => parse k NPrimary ts
          end
      | NArgs f acc =>
          match ts with
          | TRParen :: r => POk (ECall f (rev acc)) r
          | _ =>
              match acc, ts with
              | [], _ | _, TComma :: _ =>
                  match parse k NExpr (match acc with [] => ts | _ => tl ts end) with
                  | POk e r => parse k (NArgs f (e :: acc)) r
                  | PFail r => PFail r
                  | PFuel => PFuel
                  end
              | _, _ => PFail (tl ts)
              end
          end
      (* unaryExpression, 80-106 *)
      | NBin O =>
          match parse k NPostfix ts with
          | PFail r =>
              match parse k NPostfix (tl r) with
              | POk e r' => match unary_at (peek r) e with Some e' => POk e' r' | None => PFail r' end
              | PFail r' => PFail r'
              | PFuel => PFuel
              end
          | res => res
          end
      (* the binary levels, 108-394 *)
      | NBin (S n) =>
          match parse k (NBin n) ts with
          | POk e r => parse k (NLoop (S n) e) r
          | res => res
          end
      | NLoop n e =>
          match op_at n (peek ts) with
          | None => POk e ts
          | Some op =>
              match parse k (NBin (n - 1)) (tl ts) with
              | POk e2 r => parse k (NLoop n (EBin op e e2)) r
              | res => res
              end
          end
      (* conditionalExpression and expression, 396-422 *)
      | NExpr =>
          match parse k (NBin 10) ts with
          | POk c (TQuestion :: r) =>
              match parse k NExpr r with
              | POk a (TColon :: r') =>
                  match parse k NExpr r' with
                  | POk b r'' => POk (ECond c a b) r''
                  | res => res
                  end
              | POk _ r' => PFail (tl r')
              | res => res
              end
          | res => res
          end
      end
    end.

  (** parseExpression, 424-435, before Expression's constructor folds constants (simplify in
      ExprModel.v): the tree and the remaining tokens; on failure the position is restored. *)
  Definition parse_expression (ts : list token) : option (expr * list token) :=
    match parse (32 * List.length ts + 32) NExpr ts with
    | POk e r => Some (e, r)
    | _ => None
    end.
End Parser.
