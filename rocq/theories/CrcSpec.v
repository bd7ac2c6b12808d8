(** Cyclic redundancy checks, bit by bit. *)

Require Import ZArith List.
Import ListNotations.
Local Open Scope Z_scope.

(** The n low bits of x in reverse order. *)
Fixpoint reverse_bits (n : nat) (x : Z) : Z :=
  match n with
  | O => 0
  | S n => (x mod 2) * 2 ^ Z.of_nat n + reverse_bits n (x / 2)
  end.

(** One input bit enters the shift register [c], which shifts right; the feedback is the generator
    polynomial with its bits reversed (the "reflected" form that CRC-16/MODBUS and CRC-32 use). *)
Definition lfsr (generator c : Z) (bit : bool) : Z :=
  if xorb (Z.odd c) bit then Z.lxor (c / 2) generator else c / 2.

(** The bits of a byte, least significant first. *)
Definition byte_bits (b : Z) : list bool :=
  [Z.testbit b 0; Z.testbit b 1; Z.testbit b 2; Z.testbit b 3;
   Z.testbit b 4; Z.testbit b 5; Z.testbit b 6; Z.testbit b 7].
Definition message_bits (l : list Z) : list bool := flat_map byte_bits l.

Definition serial_crc (generator init : Z) (l : list Z) : Z :=
  fold_left (lfsr generator) (message_bits l) init.

(** x^16 + x^15 + x^2 + 1 *)
Definition poly16 : Z := reverse_bits 16 (2 ^ 15 + 2 ^ 2 + 1).
(** x^32+x^26+x^23+x^22+x^16+x^12+x^11+x^10+x^8+x^7+x^5+x^4+x^2+x+1 *)
Definition poly32 : Z :=
  reverse_bits 32 (2^26 + 2^23 + 2^22 + 2^16 + 2^12 + 2^11 + 2^10 + 2^8 + 2^7 + 2^5 + 2^4 + 2^2 + 2 + 1).
