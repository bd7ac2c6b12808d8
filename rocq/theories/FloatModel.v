(** The bits of floating point numbers: getFloatBits and getDoubleBits, Util/Util.cpp 97-111, and the
    conversion of a double to a float.  Numbers are those of [Coq.Floats.SpecFloat]; the bits of a
    NaN, which carry a payload, are parameters. *)

Require Import ZArith.
Require Import Floats.SpecFloat.
From Verif Require Import Ints.
Local Open Scope Z_scope.

Section Format.
  Variables prec emax : Z.       (* 24, 128 or 53, 1024 *)
  Variable width : Z.            (* 32 or 64 *)
  Variable nan_bits : Z.

  (** The union read as an unsigned integer: sign, exponent, fraction *)
  Definition pack (s : bool) (expo frac : Z) : Z :=
    (if s then 2 ^ (width - 1) else 0) + expo * 2 ^ (prec - 1) + frac.
  Definition float_bits (f : spec_float) : Z :=
    match f with
    | S754_zero s => pack s 0 0
    | S754_infinity s => pack s (2 ^ (width - prec) - 1) 0
    | S754_nan => nan_bits
    | S754_finite s m e =>
        if Zpos m <? 2 ^ (prec - 1) then pack s 0 (Zpos m)
        else pack s (e - emin prec emax + 1) (Zpos m - 2 ^ (prec - 1))
    end.
End Format.

(** (float) of a double, and of an int64_t *)
Definition to_single (f : spec_float) : spec_float :=
  match f with
  | S754_finite s m e => binary_normalize 24 128 (if s then Zneg m else Zpos m) e s
  | _ => f
  end.
Definition int_to_single (z : Z) : spec_float := binary_normalize 24 128 z 0 false.

(** getFloatBits and getDoubleBits *)
Definition get_float_bits (nan : Z) (f : spec_float) : Z := s32 (float_bits 24 128 32 nan f).
Definition get_double_bits (nan : Z) (f : spec_float) : Z := s64 (float_bits 53 1024 64 nan f).
