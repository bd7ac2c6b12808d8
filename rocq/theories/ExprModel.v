(** Model of expression values, expression trees, their evaluation and their parse-time
    simplification: /repo/Core/Expression.cpp, /repo/Core/Expression.h,
    /repo/Core/ExpressionFunctions.cpp, /repo/Core/ExpressionFunctionHandler.cpp.

    Simplifications, valid for the whole file:
    - [double] is IEEE binary64 as defined by [Coq.Floats.SpecFloat] (one NaN, no payload);
    - the text produced for a [double] ("%#.17g", "%g") and regular expression matching are
      parameters (record [host]), so every result holds for any behaviour of them;
    - the evaluation order of the two operands of a binary operator is unspecified in C++; the
      model evaluates left to right, which only affects the order of the queued messages;
    - looking up an unknown label creates an undefined label object
      (Core/SymbolTable.cpp 82-101); evaluation cannot observe that, so lookup is a function of
      the state;
    - the body of a user function (ExpressionFunctionHandler.cpp 115-180) is an arbitrary function
      of the state and the argument values. *)

Require Import ZArith Bool List String Ascii.
Require Import Floats.SpecFloat Numbers.DecimalString Numbers.DecimalZ.
Require Import Verif.Ints.
Import ListNotations.
Local Open Scope Z_scope.

(** ** Outcomes *)

(** Messages queued with [Logger::queueError]; only the kind is kept. *)
Inductive msg : Type :=
| Warn (text : string)
| Err (text : string).

(** A result with the messages it queued, undefined behaviour, or an uncaught C++ exception. *)
Inductive outcome (A : Type) : Type :=
| OVal (a : A) (ms : list msg)
| OUb
| OThrow.
Arguments OVal {A} a ms.
Arguments OUb {A}.
Arguments OThrow {A}.

Definition oret {A} (a : A) : outcome A := OVal a [].
Definition obind {A B} (o : outcome A) (f : A -> outcome B) : outcome B :=
  match o with
  | OVal a ms =>
      match f a with
      | OVal b ms' => OVal b (ms ++ ms')
      | OUb => OUb
      | OThrow => OThrow
      end
  | OUb => OUb
  | OThrow => OThrow
  end.

(** ** Values *)

Definition prec64 : Z := 53.
Definition emax64 : Z := 1024.

(** Core/Expression.h 50-106.  [intValue] of an invalid or string value is always 0, because every
    constructor and operator that leaves the integer member alone starts from a default-constructed
    value. *)
Inductive value : Type :=
| VInvalid
| VInt (z : Z)
| VFloat (f : spec_float)
| VStr (s : string).

(** Conversion int64_t -> double (round to nearest even). *)
Definition int_to_double (z : Z) : spec_float := binary_normalize prec64 emax64 z 0 false.

(** [to_string(int64_t)], Core/Expression.cpp 13-16: decimal text. *)
Definition int_text (z : Z) : string := NilZero.string_of_int (Z.to_int z).

(** What the C++ run time library contributes. *)
Record host : Type := mkHost {
  h_fmt17 : spec_float -> string;                       (** "%#.17g", Expression.cpp 18-21 *)
  h_fmtg : spec_float -> string;                        (** "%g", Expression.cpp 752 *)
  h_rx_match : string -> string -> option bool;         (** [None]: regex_error *)
  h_rx_search : string -> string -> option bool;
  h_rx_extract : string -> string -> option (list string) (** groups of the first match, [] if none *)
}.

(** ** Operators on values (Core/Expression.cpp 42-450) *)

Definition ub_unless (b : bool) (v : value) : outcome value := if b then oret v else OUb.

(** Signed 64-bit results that do not fit are undefined behaviour. *)
Definition int_or_ub (z : Z) : outcome value := ub_unless (in_int64 z) (VInt z).

(** operator+, 42-84 *)
Definition v_add (h : host) (a b : value) : outcome value :=
  match a, b with
  | VInt x, VInt y => int_or_ub (x + y)
  | VFloat x, VInt y => oret (VFloat (SFadd prec64 emax64 x (int_to_double y)))
  | VInt x, VFloat y => oret (VFloat (SFadd prec64 emax64 (int_to_double x) y))
  | VFloat x, VFloat y => oret (VFloat (SFadd prec64 emax64 x y))
  | VInt x, VStr s => oret (VStr (int_text x ++ s))
  | VFloat x, VStr s => oret (VStr (h_fmt17 h x ++ s))
  | VStr s, VInt y => oret (VStr (s ++ int_text y))
  | VStr s, VFloat y => oret (VStr (s ++ h_fmt17 h y))
  | VStr s, VStr t => oret (VStr (s ++ t))
  | _, _ => oret VInvalid
  end.

(** operator-, 86-112 *)
Definition v_sub (a b : value) : outcome value :=
  match a, b with
  | VInt x, VInt y => int_or_ub (x - y)
  | VFloat x, VInt y => oret (VFloat (SFsub prec64 emax64 x (int_to_double y)))
  | VInt x, VFloat y => oret (VFloat (SFsub prec64 emax64 (int_to_double x) y))
  | VFloat x, VFloat y => oret (VFloat (SFsub prec64 emax64 x y))
  | _, _ => oret VInvalid
  end.

(** operator*, 114-140 *)
Definition v_mul (a b : value) : outcome value :=
  match a, b with
  | VInt x, VInt y => int_or_ub (x * y)
  | VFloat x, VInt y => oret (VFloat (SFmul prec64 emax64 x (int_to_double y)))
  | VInt x, VFloat y => oret (VFloat (SFmul prec64 emax64 (int_to_double x) y))
  | VFloat x, VFloat y => oret (VFloat (SFmul prec64 emax64 x y))
  | _, _ => oret VInvalid
  end.

Definition msg_div_overflow := Warn "Division overflow in expression".
Definition msg_div_zero := Warn "Integer division by zero in expression".

(** operator/, 142-179 *)
Definition v_div (a b : value) : outcome value :=
  match a, b with
  | VInt x, VInt y =>
      if (x =? int64_min) && (y =? -1) then OVal (VInt int64_min) [msg_div_overflow]
      else if y =? 0 then OVal (VInt (-1)) [msg_div_zero]
      else oret (VInt (Z.quot x y))
  | VFloat x, VInt y => oret (VFloat (SFdiv prec64 emax64 x (int_to_double y)))
  | VInt x, VFloat y => oret (VFloat (SFdiv prec64 emax64 (int_to_double x) y))
  | VFloat x, VFloat y => oret (VFloat (SFdiv prec64 emax64 x y))
  | _, _ => oret VInvalid
  end.

(** operator%, 181-206 *)
Definition v_mod (a b : value) : outcome value :=
  match a, b with
  | VInt x, VInt y =>
      if (x =? int64_min) && (y =? -1) then OVal (VInt 0) [msg_div_overflow]
      else if y =? 0 then OVal (VInt x) [msg_div_zero]
      else oret (VInt (Z.rem x y))
  | _, _ => oret VInvalid
  end.

Definition bool_int (b : bool) : Z := if b then 1 else 0.

(** [!d] for a double: true exactly for the two zeroes. *)
Definition double_zero (f : spec_float) : bool :=
  match f with S754_zero _ => true | _ => false end.

(** operator!, 208-219; strings and invalid values have integer member 0. *)
Definition v_not (a : value) : value :=
  match a with
  | VFloat f => VInt (bool_int (double_zero f))
  | VInt x => VInt (bool_int (x =? 0))
  | VStr _ | VInvalid => VInt 1
  end.

(** operator~, 221-232 *)
Definition v_bitnot (a : value) : value :=
  match a with VInt x => VInt (Z.lnot x) | _ => VInvalid end.

(** operator<<, 234-248: the shift is done in uint64_t. *)
Definition v_shl (a b : value) : outcome value :=
  match a, b with
  | VInt x, VInt n =>
      ub_unless ((0 <=? n) && (n <? 64)) (VInt (s64 (u64 (Z.shiftl (u64 x) n))))
  | _, _ => oret VInvalid
  end.

(** operator>>, 250-264: logical shift, done in uint64_t. *)
Definition v_shr (a b : value) : outcome value :=
  match a, b with
  | VInt x, VInt n =>
      ub_unless ((0 <=? n) && (n <? 64)) (VInt (s64 (Z.shiftr (u64 x) n)))
  | _, _ => oret VInvalid
  end.

(** operator<, 266-285; std::string compares unsigned bytes lexicographically. *)
Definition v_lt (a b : value) : bool :=
  match a, b with
  | VInt x, VInt y => x <? y
  | VFloat x, VInt y => SFltb x (int_to_double y)
  | VInt x, VFloat y => SFltb (int_to_double x) y
  | VFloat x, VFloat y => SFltb x y
  | VStr s, VStr t => String.ltb s t
  | _, _ => false
  end.

(** operator<=, 287-306 *)
Definition v_le (a b : value) : bool :=
  match a, b with
  | VInt x, VInt y => x <=? y
  | VFloat x, VInt y => SFleb x (int_to_double y)
  | VInt x, VFloat y => SFleb (int_to_double x) y
  | VFloat x, VFloat y => SFleb x y
  | VStr s, VStr t => String.leb s t
  | _, _ => false
  end.

(** operator> and operator>=, 308-316 *)
Definition v_gt (a b : value) : bool := v_lt b a.
Definition v_ge (a b : value) : bool := v_le b a.

(** operator==, 318-343 *)
Definition v_eq (h : host) (a b : value) : bool :=
  match a, b with
  | VInt x, VInt y => x =? y
  | VFloat x, VInt y => SFeqb x (int_to_double y)
  | VInt x, VFloat y => SFeqb (int_to_double x) y
  | VFloat x, VFloat y => SFeqb x y
  | VInt x, VStr s => String.eqb (int_text x) s
  | VFloat x, VStr s => String.eqb (h_fmt17 h x) s
  | VStr s, VInt y => String.eqb s (int_text y)
  | VStr s, VFloat y => String.eqb s (h_fmt17 h y)
  | VStr s, VStr t => String.eqb s t
  | _, _ => false
  end.

(** operator!=, 345-348 *)
Definition v_ne (h : host) (a b : value) : bool := negb (v_eq h a b).

(** operator&, operator|, operator^, 350-396 *)
Definition v_bit (f : Z -> Z -> Z) (a b : value) : value :=
  match a, b with
  | VInt x, VInt y => VInt (f x y)
  | _, _ => VInvalid
  end.

(** Bit pattern of the double 1.0: what an integer reads from the union after the double member was
    set to 1.0. *)
Definition double_one_bits : Z := 4607182418800017408.

Definition truthy_int (x : Z) : bool := negb (x =? 0).
Definition truthy_double (f : spec_float) : bool := negb (double_zero f).

(** operator&& and operator||, 398-450: with a float operand the result is stored in [floatValue]
    while the type is Integer. *)
Definition v_logic (f : bool -> bool -> bool) (a b : value) : value :=
  let punned (r : bool) := VInt (if r then double_one_bits else 0) in
  match a, b with
  | VInt x, VInt y => VInt (bool_int (f (truthy_int x) (truthy_int y)))
  | VFloat x, VInt y => punned (f (truthy_double x) (truthy_int y))
  | VInt x, VFloat y => punned (f (truthy_int x) (truthy_double y))
  | VFloat x, VFloat y => punned (f (truthy_double x) (truthy_double y))
  | _, _ => VInt 0
  end.

(** ** Expression trees (Core/Expression.h 16-48, 130-175) *)

Inductive unop : Type := UNeg | ULogNot | UBitNot.
Inductive binop : Type :=
| BAdd | BSub | BMult | BDiv | BMod | BShl | BShr
| BLt | BGt | BLe | BGe | BEq | BNe | BAnd | BXor | BOr | BLogAnd | BLogOr.

Inductive expr : Type :=
| EInvalid
| EInt (z : Z)
| EFloat (f : spec_float)
| EIdent (name : string) (file section : Z)
| EStr (s : string)
| EPos
| EUn (op : unop) (a : expr)
| EBin (op : binop) (a b : expr)
| ECond (c a b : expr)
| EToString (a : expr)
| ECall (name : string) (args : list expr).

(** A binary operator on values: the switch of Core/Expression.cpp 653-711. *)
Definition apply_bin (h : host) (op : binop) (a b : value) : outcome value :=
  match op with
  | BAdd => v_add h a b
  | BSub => v_sub a b
  | BMult => v_mul a b
  | BDiv => v_div a b
  | BMod => v_mod a b
  | BShl => v_shl a b
  | BShr => v_shr a b
  | BLt => oret (VInt (bool_int (v_lt a b)))
  | BGt => oret (VInt (bool_int (v_gt a b)))
  | BLe => oret (VInt (bool_int (v_le a b)))
  | BGe => oret (VInt (bool_int (v_ge a b)))
  | BEq => oret (VInt (bool_int (v_eq h a b)))
  | BNe => oret (VInt (bool_int (v_ne h a b)))
  | BAnd => oret (v_bit Z.land a b)
  | BOr => oret (v_bit Z.lor a b)
  | BXor => oret (v_bit Z.lxor a b)
  | BLogAnd => oret (v_logic andb a b)
  | BLogOr => oret (v_logic orb a b)
  end.

(** A unary operator on values: Core/Expression.cpp 663-670. *)
Definition apply_un (op : unop) (a : value) : outcome value :=
  match op with
  | UNeg => v_sub (VInt 0) a
  | ULogNot => oret (v_not a)
  | UBitNot => oret (v_bitnot a)
  end.

(** ** State observed by evaluation *)

(** Result of a label lookup (Core/SymbolTable.cpp 82-101, Core/SymbolTable.h 31-64);
    [None]: the name is an equ. *)
Record label_info : Type := mkLabel {
  l_defined : bool;
  l_value : Z;
  l_phys : option Z
}.

(** Files on disk as seen through fs::exists, fs::file_size and fs::ifstream. *)
Record fsview : Type := mkFs {
  fs_exists : string -> bool;
  fs_size : string -> Z;
  fs_bytes : string -> option (list Z)
}.

(** The part of the state fixed while a source position is parsed: files, CPU mode, host. *)
Record context : Type := mkCtx {
  c_fs : fsview;
  c_isarm : bool;     (** current architecture is Arm and not in Thumb mode *)
  c_isthumb : bool;   (** Arm.GetThumbMode() *)
  c_host : host
}.

Record estate : Type := mkState {
  s_label : string -> Z -> Z -> option label_info;
  s_open : bool;              (** g_fileManager->hasOpenFile() *)
  s_virtual : Z;              (** g_fileManager->getVirtualAddress() *)
  s_physical : Z;             (** g_fileManager->getPhysicalAddress() *)
  s_header : Z;               (** g_fileManager->getHeaderSize() *)
  s_big : bool;               (** endianness *)
  s_outname : string;
  s_ctx : context
}.

(** ** Functions *)

Inductive safety : Type := Safe | ConditionalUnsafe | Unsafe.

(** The three kinds of entries of ExpressionFunctionHandler.cpp 58-180. *)
Inductive func_kind : Type :=
| FValue (f : estate -> list value -> outcome value)
| FLabel (f : estate -> list (option label_info) -> outcome value)
| FUser (f : estate -> list value -> outcome value).

Record func_entry : Type := mkEntry {
  fe_min : nat;
  fe_max : nat;
  fe_safety : safety;
  fe_fun : func_kind
}.

Definition registry : Type := string -> option func_entry.

(** ** toString (Core/Expression.cpp 722-810) *)

Definition quote : string := String (ascii_of_nat 34) EmptyString.

(** escapeString, 722-729: the escaped copy [result] is computed and then ignored. *)
Definition escape_string (text : string) : string := (quote ++ text ++ quote)%string.

Definition degree_utf8 : string :=
  String (ascii_of_nat 194) (String (ascii_of_nat 176) EmptyString).

Definition bin_text (op : binop) : string :=
  match op with
  | BAdd => " + " | BSub => " - " | BMult => " * " | BDiv => " / " | BMod => " % "
  | BShl => " << " | BShr => " >> " | BLt => " < " | BGt => " > " | BLe => " <= " | BGe => " >= "
  | BEq => " == " | BNe => " != " | BAnd => " & " | BOr => " | " | BLogAnd => " && "
  | BLogOr => " || " | BXor => " ^ "
  end.

Definition un_text (op : unop) : string :=
  match op with UNeg => "-" | ULogNot => "!" | UBitNot => "~" end.

(** toString, 745-810.  A function call reads the [StringLiteral] alternative of a variant that
    holds an [Identifier] (formatFunctionCall, 731-743): undefined behaviour. *)
Fixpoint to_text (h : host) (e : expr) : outcome string :=
  match e with
  | EInvalid => oret EmptyString
  | EInt z => oret (int_text z)
  | EFloat f => oret (h_fmtg h f)
  | EIdent n _ _ => oret n
  | EStr s => oret (escape_string s)
  | EPos => oret "."%string
  | EUn op a =>
      obind (to_text h a) (fun t => oret ("(" ++ un_text op ++ t ++ ")")%string)
  | EBin op a b =>
      obind (to_text h a) (fun ta =>
      obind (to_text h b) (fun tb => oret ("(" ++ ta ++ bin_text op ++ tb ++ ")")%string))
  | ECond c a b =>
      obind (to_text h c) (fun tc =>
      obind (to_text h a) (fun ta =>
      obind (to_text h b) (fun tb => oret ("(" ++ tc ++ " ? " ++ ta ++ " : " ++ tb ++ ")")%string)))
  | EToString a =>
      obind (to_text h a) (fun t => oret ("(" ++ degree_utf8 ++ t ++ ")")%string)
  | ECall _ _ => OUb
  end.

(** ** Evaluation (Core/Expression.cpp 608-720) *)

Definition msg_unknown_function := Err "Unknown function".
Definition msg_few_params := Err "Not enough parameters".
Definition msg_many_params := Err "Too many parameters".
Definition msg_invalid_param := Err "Invalid parameter".
Definition msg_expect_ident := Err "Invalid parameter, expecting identifier".
Definition msg_invalid_label := Err "Invalid label name".
Definition msg_undefined_label := Err "Undefined label".

Definition is_valid (v : value) : bool := match v with VInvalid => false | _ => true end.

(** Label lookup of an identifier expression, 620-637. *)
Definition eval_ident (st : estate) (n : string) (f s : Z) : outcome value :=
  match s_label st n f s with
  | None => OVal VInvalid [msg_invalid_label]
  | Some l => if l_defined l then oret (VInt (l_value l)) else OVal VInvalid [msg_undefined_label]
  end.

(** Labels of the parameters of a label function, ExpressionFunctionHandler.cpp 87-107. *)
Fixpoint label_args (st : estate) (args : list expr) : option (list (option label_info)) :=
  match args with
  | [] => Some []
  | EIdent n f s :: t =>
      match label_args st t with
      | Some ls => Some (s_label st n f s :: ls)
      | None => None
      end
  | _ :: _ => None
  end.

Section Eval.
  Variable reg : registry.
  Variable st : estate.

  (** Parameter evaluation loop, ExpressionFunctionHandler.cpp 60-77: stops at the first invalid
      parameter. *)
  Definition eval_list (ev : expr -> outcome value) :=
    fix go (l : list expr) : outcome (option (list value)) :=
      match l with
      | [] => oret (Some [])
      | a :: t =>
          obind (ev a) (fun v =>
          if is_valid v then
            obind (go t) (fun r =>
            oret (match r with Some vs => Some (v :: vs) | None => None end))
          else OVal None [msg_invalid_param])
      end.

  (** executeFunctionCall, Expression.cpp 507-531, given the evaluation of parameters. *)
  Definition call_function (n : string) (args : list expr)
      (params : outcome (option (list value))) : outcome value :=
    match reg n with
    | None => OVal VInvalid [msg_unknown_function]
    | Some fe =>
        if (List.length args <? fe_min fe)%nat then OVal VInvalid [msg_few_params]
        else if (fe_max fe <? List.length args)%nat then OVal VInvalid [msg_many_params]
        else
          match fe_fun fe with
          | FValue f | FUser f =>
              obind params (fun r =>
              match r with Some vs => f st vs | None => oret VInvalid end)
          | FLabel f =>
              match label_args st args with
              | Some ls => f st ls
              | None => OVal VInvalid [msg_expect_ident]
              end
          end
    end.

  Fixpoint eval (e : expr) : outcome value :=
    match e with
    | EInvalid => oret VInvalid
    | EInt z => oret (VInt z)
    | EFloat f => oret (VFloat f)
    | EIdent n f s => eval_ident st n f s
    | EStr s => oret (VStr s)
    | EPos => oret (VInt (s_virtual st))
    | EUn op a => obind (eval a) (apply_un op)
    | EBin op a b => obind (eval a) (fun x => obind (eval b) (apply_bin (c_host (s_ctx st)) op x))
    | ECond c a b =>
        obind (eval c) (fun x =>
        if v_eq (c_host (s_ctx st)) x (VInt 0) then eval b else eval a)
    | EToString a => obind (to_text (c_host (s_ctx st)) a) (fun t => oret (VStr t))
    | ECall n args => call_function n args (eval_list eval args)
    end.

  (** isExpressionFunctionSafe, Expression.cpp 533-548. *)
  Definition function_safe (unknown_block : bool) (n : string) : bool :=
    match reg n with
    | None => true
    | Some fe =>
        match fe_safety fe with
        | Safe => true
        | ConditionalUnsafe => negb unknown_block
        | Unsafe => false
        end
    end.

  (** The constant node that replaces a folded expression, Expression.cpp 583-602. *)
  Definition const_expr (v : value) : expr :=
    match v with
    | VInt z => EInt z
    | VFloat f => EFloat f
    | VStr s => EStr s
    | VInvalid => EInvalid
    end.

  Definition simplify_list (sm : expr -> outcome (expr * bool)) :=
    fix go (l : list expr) : outcome (list expr * bool) :=
      match l with
      | [] => oret ([], true)
      | a :: t =>
          obind (sm a) (fun '(a', ca) =>
          obind (go t) (fun '(t', ct) => oret (a' :: t', ca && ct)))
      end.

  (** If all children are constant, evaluate the node; otherwise keep it (579-605). *)
  Definition fold_node (e : expr) (can : bool) : outcome (expr * bool) :=
    if can then obind (eval e) (fun v => oret (const_expr v, true))
    else oret (e, false).

  (** simplify, Expression.cpp 550-606. *)
  Fixpoint simplify (unknown_block : bool) (e : expr) : outcome (expr * bool) :=
    match e with
    | EIdent _ _ _ | EPos | EToString _ => oret (e, false)
    | EInvalid | EInt _ | EFloat _ | EStr _ => fold_node e true
    | EUn op a =>
        obind (simplify unknown_block a) (fun '(a', ca) => fold_node (EUn op a') ca)
    | EBin op a b =>
        obind (simplify unknown_block a) (fun '(a', ca) =>
        obind (simplify unknown_block b) (fun '(b', cb) => fold_node (EBin op a' b') (ca && cb)))
    | ECond c a b =>
        obind (simplify unknown_block c) (fun '(c', cc) =>
        obind (simplify unknown_block a) (fun '(a', ca) =>
        obind (simplify unknown_block b) (fun '(b', cb) =>
        fold_node (ECond c' a' b') (cc && (ca && cb)))))
    | ECall n args =>
        if function_safe unknown_block n then
          obind (simplify_list (simplify unknown_block) args) (fun '(args', c) =>
          fold_node (ECall n args') c)
        else oret (e, false)
    end.
End Eval.

(** Expression::evaluateInteger<int64_t>, Core/Expression.h 188-200. *)
Definition evaluate_integer (reg : registry) (st : estate) (e : expr) : outcome (option Z) :=
  obind (eval reg st e) (fun v => oret (match v with VInt z => Some z | _ => None end)).

(** Expression::evaluateString, Core/Expression.cpp 835-860. *)
Definition evaluate_string (reg : registry) (st : estate) (convert : bool) (e : expr)
  : outcome (option string) :=
  obind (eval reg st e) (fun v =>
  oret (match v with
        | VInt z => if convert then Some (int_text z) else None
        | VFloat f => if convert then Some (h_fmt17 (c_host (s_ctx st)) f) else None
        | VStr s => Some s
        | VInvalid => None
        end)).
