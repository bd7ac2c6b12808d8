(** Half precision immediates (vfim.s): toHalfFloat and fromHalfFloat, Util/Util.cpp 113-212, and what immediateToHalfFloat,
    Archs/MIPS/CMipsInstruction.cpp 51-68, makes of a value.

    The fields of the unions are parts of the bits of the number ([float_bits]).  Simplified: a NaN is one NaN, its bits are a
    parameter; in fromHalfFloat the sign of the NaN, which is not kept there either, is left out. *)

Require Import ZArith Bool.
Require Import Floats.SpecFloat.
From Verif Require Import Ints FloatModel FloatSpec ExprModel.
Local Open Scope Z_scope.

(** toHalfFloat, 113-163 *)
Definition to_half (nan : Z) (x : spec_float) : Z :=
  let b := float_bits 53 1024 64 nan x in
  let mantissa := bits b 0 52 in
  let exponent := bits b 52 11 in
  let sign := bits b 63 1 in
  if (exponent =? 2047) && (mantissa =? 0) then u16 (Z.lor (Z.shiftl sign 15) (Z.shiftl 31 10))
  else if (exponent =? 2047) && negb (mantissa =? 0) then u16 (Z.lor (Z.lor (Z.shiftl sign 15) (Z.shiftl 31 10)) 1)
  else if exponent <=? 1008 then u16 (Z.shiftl sign 15)
  else
    let e := u16 (exponent - 1008) in
    let m := Z.shiftr (Z.shiftr mantissa 41 + 1) 1 in
    let '(e, m) := if m =? 1024 then (u16 (e + 1), 0) else (e, m) in
    let '(e, m) := if 31 <=? e then (30, 1023) else (e, m) in
    u16 (Z.lor (Z.lor (Z.shiftl sign 15) (Z.shiftl e 10)) m).

(** fromHalfFloat, 165-212 *)
Definition from_half (x : Z) : spec_float :=
  let mantissa := bits x 0 10 in
  let exponent := bits x 10 5 in
  let sign := bits x 15 1 =? 1 in
  if (exponent =? 31) && (mantissa =? 0) then S754_infinity sign
  else if (exponent =? 31) && negb (mantissa =? 0) then S754_nan
  else if exponent =? 0 then S754_zero sign
  else double (pack 53 64 sign (exponent + 1008) (Z.shiftl mantissa 42)).

(** immediateToHalfFloat, CMipsInstruction.cpp 51-68, with the value of the expression.  None: return false. *)
Definition immediate_half (nan : Z) (v : value) : option Z :=
  match v with
  | VFloat f => Some (to_half nan f)
  | VInt i => Some (to_half nan (int_to_double i))
  | _ => None
  end.
