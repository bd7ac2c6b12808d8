(** Property theorems C30 (checksums). *)

Require Import ZArith List Lia.
From Verif Require Import Ints Res CrcModel CrcSpec CrcProofs.
Import ListNotations.
Local Open Scope Z_scope.

(** *** C30 *)

(** The table-driven checksums are the bit-serial ones. *)
Theorem C30_crc16 : forall l, Forall is_byte l -> get_crc16 l = serial_crc poly16 (2 ^ 16 - 1) l.
Proof. exact crc16_serial. Qed.
Print Assumptions C30_crc16.

Theorem C30_crc32 : forall l, Forall is_byte l ->
  get_crc32 l = Z.lxor (serial_crc poly32 (2 ^ 32 - 1) l) (2 ^ 32 - 1).
Proof. exact crc32_serial. Qed.
Print Assumptions C30_crc32.

(** A change within two (four) consecutive bytes, in particular of one byte, changes the checksum. *)
Theorem C30_crc16_detects : forall p l m s,
  Forall is_byte (p ++ l ++ s) -> Forall is_byte m -> length l = length m -> (length l <= 2)%nat -> l <> m ->
  get_crc16 (p ++ l ++ s) <> get_crc16 (p ++ m ++ s).
Proof. exact crc16_detects. Qed.
Print Assumptions C30_crc16_detects.

Theorem C30_crc32_detects : forall p l m s,
  Forall is_byte (p ++ l ++ s) -> Forall is_byte m -> length l = length m -> (length l <= 4)%nat -> l <> m ->
  get_crc32 (p ++ l ++ s) <> get_crc32 (p ++ m ++ s).
Proof. exact crc32_detects. Qed.
Print Assumptions C30_crc32_detects.

(** The plain checksum is the sum of the bytes, as long as that fits an int. *)
Theorem C30_checksum : forall l, Forall is_byte l ->
  get_checksum l = if fold_right Z.add 0 l <=? 2147483647 then ROk (fold_right Z.add 0 l) else RUb.
Proof. exact checksum_exact. Qed.
Print Assumptions C30_checksum.

(** "123456789" has the published check values. *)
Example C30_ex_bytes : Forall is_byte [49;50;51;52;53;54;55;56;57].
Proof. repeat constructor; unfold is_byte; lia. Qed.
Example C30_ex_check :
  get_crc16 [49;50;51;52;53;54;55;56;57] = 0x4B37 /\ get_crc32 [49;50;51;52;53;54;55;56;57] = 0xCBF43926 /\
  poly16 = 0xA001 /\ poly32 = 0xEDB88320 /\
  get_crc32 ([49;50] ++ [51;52] ++ [53]) <> get_crc32 ([49;50] ++ [51;53] ++ [53]).
Proof. vm_compute. intuition discriminate. Qed.
