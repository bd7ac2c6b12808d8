(** Half precision numbers (IEEE 754 binary16), and which of them is nearest to a number. *)

Require Import ZArith Bool.
Require Import Floats.SpecFloat.
Local Open Scope Z_scope.

(** A half: sign, exponent of 5 bits, fraction of 10 bits. *)
Definition half (s : bool) (E F : Z) : Z := (if s then 32768 else 0) + E * 1024 + F.
Definition half_fields (E F : Z) : Prop := 0 <= E < 32 /\ 0 <= F < 1024.
(** The magnitude of a finite half, in units of 2^-1074 (the smallest double): 1.F * 2^(E-15), or 0.F * 2^-14. *)
Definition magnitude (E F : Z) : Z := if E =? 0 then F * 2 ^ 1050 else (1024 + F) * 2 ^ (E + 1049).
Definition signed (s : bool) (z : Z) : Z := if s then - z else z.
(** The value of a double, in the same unit. *)
Definition double_value (x : spec_float) : Z :=
  match x with S754_finite s m e => signed s (Zpos m * 2 ^ (e + 1074)) | _ => 0 end.

(** h is a finite half, none is nearer to v, and of those as near none has a greater magnitude. *)
Definition nearest (v h : Z) : Prop := exists s E F, half_fields E F /\ E < 31 /\ h = half s E F /\
  forall s' E' F', half_fields E' F' -> E' < 31 ->
    let d := Z.abs (v - signed s (magnitude E F)) in
    let d' := Z.abs (v - signed s' (magnitude E' F')) in
    d < d' \/ (d = d' /\ magnitude E' F' <= magnitude E F).
(** The smallest magnitude of a half that is not subnormal: 2^-14. *)
Definition smallest_normal : Z := 2 ^ 1060.
