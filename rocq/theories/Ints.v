(** Fixed-width integer conversions used by the model of the C++ code.

    The C++ program works on [int64_t], [int], [uint32_t], ... .  The model uses [Z] and applies
    the following conversions exactly where the C++ code converts between types or wraps. *)

Require Import ZArith Lia Bool List.
Require Import ZifyBool.
Import ListNotations.
Local Open Scope Z_scope.

(** Conversion to an unsigned type of [n] bits. *)
Definition uwrap (n x : Z) : Z := x mod 2 ^ n.

(** Conversion to a signed (two's complement) type of [n] bits. *)
Definition swrap (n x : Z) : Z :=
  let y := x mod 2 ^ n in if y <? 2 ^ (n - 1) then y else y - 2 ^ n.

Definition u8 (x : Z) : Z := x mod 256.
Definition u16 (x : Z) : Z := x mod 65536.
Definition u32 (x : Z) : Z := x mod 4294967296.
Definition u64 (x : Z) : Z := x mod 18446744073709551616.

Definition s8 (x : Z) : Z := let y := x mod 256 in if y <? 128 then y else y - 256.
Definition s16 (x : Z) : Z := let y := x mod 65536 in if y <? 32768 then y else y - 65536.
Definition s32 (x : Z) : Z :=
  let y := x mod 4294967296 in if y <? 2147483648 then y else y - 4294967296.
Definition s64 (x : Z) : Z :=
  let y := x mod 18446744073709551616 in
  if y <? 9223372036854775808 then y else y - 18446744073709551616.

(** Representable ranges. *)
Definition int64_min : Z := -9223372036854775808.
Definition int64_max : Z := 9223372036854775807.
Definition is_int64 (x : Z) : Prop := int64_min <= x <= int64_max.
Definition in_int64 (x : Z) : bool := (int64_min <=? x) && (x <=? int64_max).
Definition is_int32 (x : Z) : Prop := -2147483648 <= x < 2147483648.
Definition is_u32 (x : Z) : Prop := 0 <= x < 4294967296.
Definition is_byte (x : Z) : Prop := 0 <= x < 256.

(** Bit [i] of [x] as 0/1. *)
Definition bitz (x i : Z) : Z := if Z.testbit x i then 1 else 0.

(** Bits [lo .. lo+len-1] of [x]. *)
Definition bits (x lo len : Z) : Z := (x / 2 ^ lo) mod 2 ^ len.
