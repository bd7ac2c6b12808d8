(** Property C92: half precision immediates. *)

Require Import ZArith Bool Lia.
Require Import Floats.SpecFloat.
From Verif Require Import Ints FloatModel FloatSpec FloatProofs ExprModel HalfModel HalfSpec HalfProofs.
Local Open Scope Z_scope.

(** Any number of at least 2^-14 becomes the nearest half (of two the one further from zero); numbers too large for a half become
    the greatest one. *)
Theorem C92_nearest_partial nan x : valid_binary 53 1024 x = true -> smallest_normal <= Z.abs (double_value x) ->
  immediate_half nan (VFloat x) = Some (to_half nan x) /\ nearest (double_value x) (to_half nan x).
Proof. intros V S. split; [reflexivity|]. exact (half_rounds nan x V S). Qed.
Print Assumptions C92_nearest_partial.

(** Smaller ones become zero, zero and infinity stay, and a NaN becomes a NaN. *)
Theorem C92_small nan s m e : valid_binary 53 1024 (S754_finite s m e) = true -> Z.abs (double_value (S754_finite s m e)) < smallest_normal ->
  to_half nan (S754_finite s m e) = half s 0 0.
Proof. exact (half_flush nan s m e). Qed.
Print Assumptions C92_small.
Theorem C92_special nan s : to_half nan (S754_zero s) = half s 0 0 /\ to_half nan (S754_infinity s) = half s 31 0 /\
  (bits nan 52 11 = 2047 -> bits nan 0 52 <> 0 -> exists s', to_half nan S754_nan = half s' 31 1).
Proof. destruct (half_special nan s) as [A B]. split; [exact A|]. split; [exact B|]. exact (half_nan nan). Qed.
Print Assumptions C92_special.

(** A half is read back as itself. *)
Theorem C92_back nan s E F : half_fields E F -> E < 31 -> (E = 0 -> F = 0) -> to_half nan (from_half (half s E F)) = half s E F.
Proof. exact (half_back nan s E F). Qed.
Print Assumptions C92_back.

(** Integers are rounded once: the result is the half nearest to the integer. *)
Theorem C92_integers nan i : i <> 0 -> Z.abs i < 2 ^ 53 -> exists h, immediate_half nan (VInt i) = Some h /\ nearest (i * 2 ^ 1074) h.
Proof. exact (half_integer nan i). Qed.
Print Assumptions C92_integers.

(** A number between the greatest subnormal half and 2^-14 that is next to 2^-14 becomes zero: 2^-14 - 2^-26. *)
Theorem C92_nearest_refuted nan : exists x, valid_binary 53 1024 x = true /\ 0 < double_value x /\ to_half nan x = half false 0 0 /\
  4095 * (Z.abs (double_value x - magnitude 1 0)) <= Z.abs (double_value x - magnitude 0 0) /\
  forall E F, half_fields E F -> E < 31 -> Z.abs (double_value x - magnitude 1 0) <= Z.abs (double_value x - magnitude E F).
Proof. exact (half_not_nearest nan). Qed.
Print Assumptions C92_nearest_refuted.

(** 1.00048828125 is halfway between 1 and the next half; 100000 is too large; 0.1 is no half. *)
Example C92_case :
  let x := S754_finite false 4505798650626048 (-52) in let t := S754_finite true 7205759403792794 (-56) in
  valid_binary 53 1024 x = true /\ smallest_normal <= Z.abs (double_value x) /\ to_half 0 x = half false 15 1 /\
  valid_binary 53 1024 t = true /\ smallest_normal <= Z.abs (double_value t) /\ to_half 0 t = half true 11 614 /\
  immediate_half 0 (VInt 100000) = Some (half false 30 1023) /\ immediate_half 0 (VInt (-3)) = Some (half true 16 512).
Proof. repeat split; vm_compute; congruence. Qed.
