(** Operands of the vector unit: how they are written, and what the bits of the instruction mean to the unit. *)

Require Import ZArith Bool List String.
From Coq Require Import Floats.SpecFloat.
From Verif Require Import ParseModel.
Import ListNotations.
Local Open Scope string_scope.
Local Open Scope list_scope.
Local Open Scope Z_scope.

Definition bit (n k : Z) : bool := Z.odd (n / 2 ^ k).
Definition field2 (n k : Z) : Z := (n / 2 ^ k) mod 4.

(** Four lanes with commas between them. *)
Definition four {A} (w : A -> list token) (a b c d : A) : list token := w a ++ TComma :: w b ++ TComma :: w c ++ TComma :: w d.

(** ** Prefixes of sources *)
(** One lane: a lane of the source or a constant, perhaps its absolute value, perhaps negated. *)
Inductive const := K0 | K1 | K2 | Khalf | K3 | Kthird | Kfourth | Ksixth.
Inductive lane := LX | LY | LZ | LW.
Inductive source := Lane (neg abs : bool) (l : lane) | Const (neg : bool) (c : const).
Definition write_const (c : const) : list token :=
  match c with
  | K0 => [TInt 0] | K1 => [TInt 1] | K2 => [TInt 2] | K3 => [TInt 3]
  | Khalf => [TInt 1; TDiv; TInt 2] | Kthird => [TInt 1; TDiv; TInt 3] | Kfourth => [TInt 1; TDiv; TInt 4] | Ksixth => [TInt 1; TDiv; TInt 6]
  end.
Definition write_lane (l : lane) : token := TIdent match l with LX => "x" | LY => "y" | LZ => "z" | LW => "w" end.
Definition write_source (s : source) : list token :=
  match s with
  | Lane neg abs l => (if neg then [TMinus] else []) ++ (if abs then [TBitOr; write_lane l; TBitOr] else [write_lane l])
  | Const neg c => (if neg then [TMinus] else []) ++ write_const c
  end.
(** The unit: two bits for the lane or constant, a bit for the absolute value or the other constants, one for a constant, one for the sign. *)
Definition lane_of (n : Z) : lane := match n with 0 => LX | 1 => LY | 2 => LZ | _ => LW end.
Definition const_of (high : bool) (n : Z) : const :=
  match high, n with
  | false, 0 => K0 | false, 1 => K1 | false, 2 => K2 | false, _ => Khalf
  | true, 0 => K3 | true, 1 => Kthird | true, 2 => Kfourth | true, _ => Ksixth
  end.
Definition source_of (n i : Z) : source :=
  let swz := field2 n (2 * i) in
  if bit n (12 + i) then Const (bit n (16 + i)) (const_of (bit n (8 + i)) swz) else Lane (bit n (16 + i)) (bit n (8 + i)) (lane_of swz).

(** ** Prefixes of destinations *)
Inductive dest := Keep | Mask | Sat0 | Sat1.
Definition write_dest (d : dest) : list token :=
  match d with
  | Keep => [] | Mask => [TIdent "m"] | Sat0 => [TLBrack; TInt 0; TColon; TInt 1; TRBrack] | Sat1 => [TLBrack; TMinus; TInt 1; TColon; TInt 1; TRBrack]
  end.
Definition dest_of (n i : Z) : option dest :=
  match bit n (8 + i), field2 n (2 * i) with
  | true, 0 => Some Mask | false, 0 => Some Keep | false, 1 => Some Sat0 | false, 3 => Some Sat1 | _, _ => None
  end.

(** ** Rotations: every lane is 0, the cosine or the sine *)
Inductive rlane := Zero | Cos | Sin (neg : bool).
(** With the texts of the tokens: a zero is the digit 0. *)
Inductive rlane_written : rlane -> list (token * string) -> Prop :=
| w_zero z : rlane_written Zero [(TInt z, "0")]
| w_cos t : rlane_written Cos [(TIdent "c", t)]
| w_sin t : rlane_written (Sin false) [(TIdent "s", t)]
| w_neg t0 t : rlane_written (Sin true) [(TMinus, t0); (TIdent "s", t)].
Inductive rlanes_written : list rlane -> list (token * string) -> Prop :=
| w_one r w : rlane_written r w -> rlanes_written [r] w
| w_more r w t l ws : rlane_written r w -> rlanes_written l ws -> rlanes_written (r :: l) (w ++ (TComma, t) :: ws).
(** The unit: if both fields are the same all lanes are the sine; then the lane of the sine, then the lane of the cosine. *)
Definition rlane_of (n i : Z) : rlane :=
  let cos := field2 n 0 in let sin := field2 n 2 in let neg := bit n 4 in
  if i =? cos then Cos else if i =? sin then Sin neg else if cos =? sin then Sin neg else Zero.
Definition rotation_of (n : Z) (lanes : nat) : list rlane := map (fun i => rlane_of n (Z.of_nat i)) (seq 0 lanes).

(** ** Constants of vcst, by their number *)
Inductive constant : Z -> list token -> Prop :=
| k_max : constant 1 [TIdent "maxfloat"]
| k_sqrt2 : constant 2 [TIdent "sqrt"; TLParen; TInt 2; TRParen]
| k_sqrt12 : constant 3 [TIdent "sqrt"; TLParen; TInt 1; TDiv; TInt 2; TRParen]
| k_2_sqrtpi : constant 4 [TInt 2; TDiv; TIdent "sqrt"; TLParen; TIdent "pi"; TRParen]
| k_2_pi : constant 5 [TInt 2; TDiv; TIdent "pi"]
| k_1_pi : constant 6 [TInt 1; TDiv; TIdent "pi"]
| k_pi_4 : constant 7 [TIdent "pi"; TDiv; TInt 4]
| k_pi_2 : constant 8 [TIdent "pi"; TDiv; TInt 2]
| k_pi : constant 9 [TIdent "pi"]
| k_e : constant 10 [TIdent "e"]
| k_log2e : constant 11 [TIdent "log2"; TLParen; TIdent "e"; TRParen]
| k_log10e : constant 12 [TIdent "log10"; TLParen; TIdent "e"; TRParen]
| k_ln2 : constant 13 [TIdent "ln"; TLParen; TInt 2; TRParen]
| k_ln10 : constant 14 [TIdent "ln"; TLParen; TInt 10; TRParen]
| k_2pi : constant 15 [TInt 2; TMult; TIdent "pi"]
| k_pi_6 : constant 16 [TIdent "pi"; TDiv; TInt 6]
| k_log10_2 : constant 17 [TIdent "log10"; TLParen; TInt 2; TRParen]
| k_log2_10 : constant 18 [TIdent "log2"; TLParen; TInt 10; TRParen]
| k_sqrt3_2 : constant 19 [TIdent "sqrt"; TLParen; TInt 3; TRParen; TDiv; TInt 2].
(** The other way to write number 3; 0.5 is 2^52 * 2^-53. *)
Definition sqrt_half : list token := [TIdent "sqrt"; TLParen; TFloat (S754_finite false 4503599627370496 (-53)); TRParen].
