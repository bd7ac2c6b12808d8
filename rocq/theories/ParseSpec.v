(** The documented expression grammar, stated on its own: C's operators with C's precedence and
    associativity, parentheses, function calls, the conditional operator and the unary degree sign. *)

Require Import ZArith List String Bool.
From Verif Require Import ExprModel ParseModel.
Import ListNotations.

(** C's precedence, tightest first: 0 primary and calls, 1 unary, 2 .. 11 binary, 12 conditional. *)
Definition c_prec (op : binop) : nat :=
  match op with
  | BMult | BDiv | BMod => 2
  | BAdd | BSub => 3
  | BShl | BShr => 4
  | BLt | BLe | BGt | BGe => 5
  | BEq | BNe => 6
  | BAnd => 7
  | BXor => 8
  | BOr => 9
  | BLogAnd => 10
  | BLogOr => 11
  end.

Definition bin_token (op : binop) : token :=
  match op with
  | BAdd => TPlus | BSub => TMinus | BMult => TMult | BDiv => TDiv | BMod => TMod
  | BShl => TLeftShift | BShr => TRightShift
  | BLt => TLess | BGt => TGreater | BLe => TLessEqual | BGe => TGreaterEqual
  | BEq => TEqual | BNe => TNotEqual | BAnd => TBitAnd | BXor => TCaret | BOr => TBitOr
  | BLogAnd => TLogAnd | BLogOr => TLogOr
  end.

Definition un_token (op : unop) : token :=
  match op with UNeg => TMinus | ULogNot => TExclamation | UBitNot => TTilde end.

Section Grammar.
  Variable isfun : string -> bool.
  Variables file section : Z.

  (** [gram n ts e]: the tokens [ts] spell the tree [e] at precedence [n] or tighter. *)
  Inductive gram : nat -> list token -> expr -> Prop :=
  | g_int : forall z, gram 0 [TInt z] (EInt z)
  | g_float : forall f, gram 0 [TFloat f] (EFloat f)
  | g_str : forall s, gram 0 [TStr s] (EStr s)
  | g_pos : gram 0 [TIdent "."] EPos
  | g_ident : forall n, n <> "."%string -> gram 0 [TIdent n] (EIdent n file section)
  | g_paren : forall ts e, gram 12 ts e -> gram 0 (TLParen :: ts ++ [TRParen]) e
  | g_call0 : forall f, isfun f = true -> gram 0 [TIdent f; TLParen; TRParen] (ECall f [])
  | g_call : forall f ts es, isfun f = true -> gargs ts es ->
      gram 0 (TIdent f :: TLParen :: ts ++ [TRParen]) (ECall f es)
  | g_plus : forall ts e, gram 0 ts e -> gram 1 (TPlus :: ts) e
  | g_un : forall op ts e, gram 0 ts e -> gram 1 (un_token op :: ts) (EUn op e)
  | g_tostring : forall ts e, gram 0 ts e -> gram 1 (TDegree :: ts) (EToString e)
  | g_bin : forall op ts1 ts2 a b,
      gram (c_prec op) ts1 a -> gram (c_prec op - 1) ts2 b ->
      gram (c_prec op) (ts1 ++ bin_token op :: ts2) (EBin op a b)
  | g_cond : forall tc ta tb c a b,
      gram 11 tc c -> gram 12 ta a -> gram 12 tb b ->
      gram 12 (tc ++ TQuestion :: ta ++ TColon :: tb) (ECond c a b)
  | g_up : forall n ts e, (n < 12)%nat -> gram n ts e -> gram (S n) ts e
  with gargs : list token -> list expr -> Prop :=
  | ga_one : forall ts e, gram 12 ts e -> gargs ts [e]
  | ga_cons : forall ts e ts' es, gram 12 ts e -> gargs ts' es -> gargs (ts ++ TComma :: ts') (e :: es).

  (** A continuation that cannot extend an expression: it starts with no binary operator, no '?',
      and no '(' (which would turn a final function name into a call). *)
  Definition extends (t : token) : bool :=
    match t with
    | TPlus | TMinus | TMult | TDiv | TMod | TLeftShift | TRightShift | TLess | TGreater
    | TLessEqual | TGreaterEqual | TEqual | TNotEqual | TBitAnd | TCaret | TBitOr | TLogAnd
    | TLogOr | TQuestion | TLParen => true
    | _ => false
    end.
  Definition cannot_extend (rest : list token) : Prop :=
    match rest with t :: _ => extends t = false | [] => True end.

  (** Writing a tree with parentheses only where they are needed.  [show n e] is [e] in a place
      that accepts precedence [n].  The operand of a unary operator is written at precedence 0. *)
  Definition prec_of (e : expr) : nat :=
    match e with
    | EUn _ _ | EToString _ => 1
    | EBin op _ _ => c_prec op
    | ECond _ _ _ => 12
    | _ => 0
    end.
  Definition wrap_if (b : bool) (ts : list token) : list token :=
    if b then TLParen :: ts ++ [TRParen] else ts.
  Definition comma_separated (l : list (list token)) : list token :=
    match l with
    | [] => []
    | x :: r => x ++ flat_map (fun y => TComma :: y) r
    end.
  Fixpoint show (n : nat) (e : expr) {struct e} : list token :=
    wrap_if (Nat.ltb n (prec_of e))
      match e with
      | EInvalid => []
      | EInt z => [TInt z]
      | EFloat f => [TFloat f]
      | EIdent m _ _ => [TIdent m]
      | EStr s => [TStr s]
      | EPos => [TIdent "."]
      | EUn op a => un_token op :: show 0 a
      | EToString a => TDegree :: show 0 a
      | EBin op a b => show (c_prec op) a ++ bin_token op :: show (c_prec op - 1) b
      | ECond c a b => show 11 c ++ TQuestion :: show 12 a ++ TColon :: show 12 b
      | ECall f args => TIdent f :: TLParen :: comma_separated (List.map (show 12) args) ++ [TRParen]
      end.

  (** The same, except that the operand of a unary operator may itself be a unary operator without
      parentheses, as in C ("!!x", "-~x"). *)
  Fixpoint show_c (n : nat) (e : expr) {struct e} : list token :=
    wrap_if (Nat.ltb n (prec_of e))
      match e with
      | EInvalid => []
      | EInt z => [TInt z]
      | EFloat f => [TFloat f]
      | EIdent m _ _ => [TIdent m]
      | EStr s => [TStr s]
      | EPos => [TIdent "."]
      | EUn op a => un_token op :: show_c 1 a
      | EToString a => TDegree :: show_c 1 a
      | EBin op a b => show_c (c_prec op) a ++ bin_token op :: show_c (c_prec op - 1) b
      | ECond c a b => show_c 11 c ++ TQuestion :: show_c 12 a ++ TColon :: show_c 12 b
      | ECall f args => TIdent f :: TLParen :: comma_separated (List.map (show_c 12) args) ++ [TRParen]
      end.

  (** Trees that source text can denote at this place: identifiers belong to the current file and
      section and are not ".", and called functions exist. *)
  Fixpoint writable (e : expr) : Prop :=
    match e with
    | EInvalid => False
    | EInt _ | EFloat _ | EStr _ | EPos => True
    | EIdent n f s => n <> "."%string /\ f = file /\ s = section
    | EUn _ a | EToString a => writable a
    | EBin _ a b => writable a /\ writable b
    | ECond c a b => writable c /\ writable a /\ writable b
    | ECall f args => isfun f = true /\ fold_right (fun x p => writable x /\ p) True args
    end.

  (** Every '(' in the tokens opens a group: after a function name an argument list, elsewhere an
      expression, in both cases followed by ')'.  [prev]: the token before is a function name. *)
  Definition is_function_name (t : token) : bool :=
    match t with TIdent n => isfun n | _ => false end.
  Definition group (call : bool) (r : list token) : Prop :=
    exists c r', r = c ++ TRParen :: r' /\
      if call then c = [] \/ (exists es, gargs c es) else exists e, gram 12 c e.
  Fixpoint groups_ok (prev : bool) (ts : list token) : Prop :=
    match ts with
    | [] => True
    | t :: r => (t = TLParen -> group prev r) /\ groups_ok (is_function_name t) r
    end.

  (** [reduces ts c rest]: the tokens [ts] up to [rest] are [c] after deleting stretches, each of
      which starts at a '(' (or a function name and '(') that does not open a well formed group, and
      ends in front of a unary operator. *)
  Definition is_unary (t : token) : bool :=
    match t with TPlus | TMinus | TTilde | TExclamation | TDegree => true | _ => false end.
  Inductive reduces : list token -> list token -> list token -> Prop :=
  | r_end : forall rest, reduces rest [] rest
  | r_keep : forall t ts c rest, reduces ts c rest -> reduces (t :: ts) (t :: c) rest
  | r_group : forall j op ts c rest, is_unary op = true -> ~ group false (j ++ op :: ts) ->
      reduces ts c rest -> reduces (TLParen :: j ++ op :: ts) (op :: c) rest
  | r_call : forall f j op ts c rest, isfun f = true -> is_unary op = true -> ~ group true (j ++ op :: ts) ->
      reduces ts c rest -> reduces (TIdent f :: TLParen :: j ++ op :: ts) (op :: c) rest.
End Grammar.
