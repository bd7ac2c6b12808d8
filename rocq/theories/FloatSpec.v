(** The number that IEEE 754 bits stand for. *)

Require Import ZArith.
Require Import Floats.SpecFloat.
Local Open Scope Z_scope.

Section Format.
  Variables prec emax width : Z.
  Definition sign_of (b : Z) : bool := Z.testbit b (width - 1).
  Definition exponent_of (b : Z) : Z := (b / 2 ^ (prec - 1)) mod 2 ^ (width - prec).
  Definition fraction_of (b : Z) : Z := b mod 2 ^ (prec - 1).
  Definition ieee (b : Z) : spec_float :=
    let s := sign_of b in
    let E := exponent_of b in
    let F := fraction_of b in
    if E =? 2 ^ (width - prec) - 1 then (if F =? 0 then S754_infinity s else S754_nan)
    else if E =? 0 then match F with Zpos m => S754_finite s m (3 - emax - prec) | _ => S754_zero s end
    else match F + 2 ^ (prec - 1) with Zpos m => S754_finite s m (E - 1 + (3 - emax - prec)) | _ => S754_nan end.
End Format.
Definition single (b : Z) : spec_float := ieee 24 128 32 b.
Definition double (b : Z) : spec_float := ieee 53 1024 64 b.
