(** Specification side for expressions: what the operators of a C-like integer language mean,
    written without reference to how the model computes them. *)

Require Import ZArith Bool List String Ascii.
Require Import Floats.SpecFloat.
Require Import Verif.Ints Verif.ExprModel.
Import ListNotations.
Local Open Scope Z_scope.

(** ** Integer operators *)

(** Two's complement bit [i] of an integer, for any [i]. *)
Definition bit (x i : Z) : bool := Z.testbit x i.

(** Quotient and remainder of C division: truncation towards zero. *)
Definition c_division (a b q r : Z) : Prop :=
  a = b * q + r /\ Z.abs r < Z.abs b /\ (r = 0 \/ (0 < r <-> 0 < a)).

(** [r] represents [x] modulo 2^64 as a signed 64-bit number. *)
Definition represents64 (r x : Z) : Prop :=
  is_int64 r /\ exists k, r = x + k * 18446744073709551616.

(** The unsigned reading of a signed 64-bit number. *)
Definition unsigned64 (x : Z) : Z := if x <? 0 then x + 18446744073709551616 else x.

Definition is01 (P : Prop) (r : Z) : Prop := (P /\ r = 1) \/ (~ P /\ r = 0).

(** Meaning of every binary operator on 64-bit integers, when it is defined. *)
Definition int_meaning (op : binop) (a b r : Z) : Prop :=
  match op with
  | BAdd => r = a + b
  | BSub => r = a - b
  | BMult => r = a * b
  | BDiv =>
      if b =? 0 then r = -1
      else if (a =? int64_min) && (b =? -1) then r = int64_min
      else exists m, c_division a b r m
  | BMod =>
      if b =? 0 then r = a
      else if (a =? int64_min) && (b =? -1) then r = 0
      else exists q, c_division a b q r
  | BShl => represents64 r (a * 2 ^ b)
  | BShr => represents64 r (unsigned64 a / 2 ^ b)
  | BLt => is01 (a < b) r
  | BGt => is01 (a > b) r
  | BLe => is01 (a <= b) r
  | BGe => is01 (a >= b) r
  | BEq => is01 (a = b) r
  | BNe => is01 (a <> b) r
  | BAnd => forall i, 0 <= i -> bit r i = bit a i && bit b i
  | BOr => forall i, 0 <= i -> bit r i = bit a i || bit b i
  | BXor => forall i, 0 <= i -> bit r i = xorb (bit a i) (bit b i)
  | BLogAnd => is01 (a <> 0 /\ b <> 0) r
  | BLogOr => is01 (a <> 0 \/ b <> 0) r
  end.

(** The operand pairs for which C++ defines no result. *)
Definition int_undefined (op : binop) (a b : Z) : Prop :=
  match op with
  | BAdd => ~ is_int64 (a + b)
  | BSub => ~ is_int64 (a - b)
  | BMult => ~ is_int64 (a * b)
  | BShl | BShr => ~ (0 <= b <= 63)
  | _ => False
  end.

(** The operand pairs that are reported with a warning. *)
Definition int_warned (op : binop) (a b : Z) : Prop :=
  match op with
  | BDiv | BMod => b = 0 \/ (a = int64_min /\ b = -1)
  | _ => False
  end.

Definition unop_meaning (op : unop) (a r : Z) : Prop :=
  match op with
  | UNeg => r = - a
  | ULogNot => is01 (a = 0) r
  | UBitNot => forall i, 0 <= i -> bit r i = negb (bit a i)
  end.

(** ** Messages and outcomes *)

Definition is_warning (m : msg) : Prop := match m with Warn _ => True | Err _ => False end.

(** The result without the messages. *)
Definition result_of {A} (o : outcome A) : outcome A :=
  match o with OVal a _ => OVal a [] | OUb => OUb | OThrow => OThrow end.
Definition messages_of {A} (o : outcome A) : list msg :=
  match o with OVal _ ms => ms | _ => [] end.

(** ** Comparisons *)

(** What the program observes: the comparison expression evaluates to 1 (true) or 0 (false). *)
Definition cmp_true (reg : registry) (st : estate) (op : binop) (a b : value) : Prop :=
  eval reg st (EBin op (const_expr a) (const_expr b)) = OVal (VInt 1) [].
Definition cmp_false (reg : registry) (st : estate) (op : binop) (a b : value) : Prop :=
  eval reg st (EBin op (const_expr a) (const_expr b)) = OVal (VInt 0) [].

Definition not_nan (f : spec_float) : Prop := f <> S754_nan.

(** Pairs of values the language can order: two numbers (no NaN) or two strings. *)
Definition number (v : value) : Prop :=
  match v with VInt _ => True | VFloat f => not_nan f | _ => False end.
Definition comparable (a b : value) : Prop :=
  (number a /\ number b) \/ (exists s t, a = VStr s /\ b = VStr t).

Definition same_kind (a b : value) : Prop :=
  match a, b with
  | VInt _, VInt _ | VStr _, VStr _ => True
  | VFloat f, VFloat g => not_nan f /\ not_nan g
  | _, _ => False
  end.

(** ** Extreme elements *)

(** A number as a double. *)
Definition as_double (v : value) : spec_float :=
  match v with VInt z => int_to_double z | VFloat f => f | _ => S754_nan end.

Definition all_ints (ps : list value) : Prop := forall v, In v ps -> exists z, v = VInt z.
Definition all_numbers (ps : list value) : Prop := forall v, In v ps -> number v.
Definition some_float (ps : list value) : Prop := exists f, In (VFloat f) ps.

Definition valid_type (v : value) : Prop := v <> VInvalid.

(** C truth value of a number. *)
Definition truth (v : value) : Prop :=
  match v with
  | VInt z => z <> 0
  | VFloat f => match f with S754_zero _ => False | _ => True end
  | _ => False
  end.
