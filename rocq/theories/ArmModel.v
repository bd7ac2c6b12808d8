(** Model of the ARM-mode instruction encoder.

    Transcribes Archs/ARM/ArmOpcodes.{h,cpp} and Archs/ARM/CArmInstruction.cpp.  Expressions are
    evaluated by the caller: an evaluation result is passed in ([option Z] for [evaluateInteger],
    [imm_value] for [evaluate]).  Error messages are collapsed to [RErr]: an error was queued, so
    assembly fails.  [RUb] marks operations that have no defined behaviour in C++17. *)

Require Import ZArith Bool List String Ascii.
Require Import Verif.Ints Verif.Res.
Import ListNotations.
Local Open Scope Z_scope.

(** Opcode types: Archs/ARM/ArmOpcodes.h 6-21. *)
Definition ARM_TYPE3 := 0.   Definition ARM_TYPE4 := 1.   Definition ARM_TYPE5 := 2.
Definition ARM_TYPE6 := 3.   Definition ARM_TYPE7 := 4.   Definition ARM_TYPE8 := 5.
Definition ARM_TYPE9 := 6.   Definition ARM_TYPE10 := 7.  Definition ARM_TYPE11 := 8.
Definition ARM_TYPE12 := 9.  Definition ARM_TYPE13 := 10. Definition ARM_TYPE14 := 11.
Definition ARM_TYPE15 := 12. Definition ARM_TYPE16 := 13. Definition ARM_TYPE17 := 14.
Definition ARM_MISC := 15.

(** Opcode flags: Archs/ARM/ArmOpcodes.h 24-57. *)
Definition ARM_ARM9      := 0x00000001.
Definition ARM_S         := 0x00000002.
Definition ARM_D         := 0x00000004.
Definition ARM_N         := 0x00000008.
Definition ARM_M         := 0x00000010.
Definition ARM_IMMEDIATE := 0x00000020.
Definition ARM_WORD      := 0x00000040.
Definition ARM_HALFWORD  := 0x00000080.
Definition ARM_EXCHANGE  := 0x00000100.
Definition ARM_UNCOND    := 0x00000200.
Definition ARM_REGISTER  := 0x00000400.
Definition ARM_LOAD      := 0x00000800.
Definition ARM_STORE     := 0x00001000.
Definition ARM_X         := 0x00002000.
Definition ARM_Y         := 0x00004000.
Definition ARM_SHIFT     := 0x00008000.
Definition ARM_POOL      := 0x00010000.
Definition ARM_ABS       := 0x00020000.
Definition ARM_BRANCH    := 0x00040000.
Definition ARM_ABSIMM    := 0x00080000.
Definition ARM_MRS       := 0x00100000.
Definition ARM_SWI       := 0x00200000.
Definition ARM_COPOP     := 0x00400000.
Definition ARM_COPINF    := 0x00800000.
Definition ARM_DN        := 0x01000000.
Definition ARM_DM        := 0x02000000.
Definition ARM_SIGN      := 0x04000000.
Definition ARM_RDEVEN    := 0x08000000.
Definition ARM_OPTIMIZE  := 0x10000000.
Definition ARM_OPMOVMVN  := 0x20000000.
Definition ARM_OPANDBIC  := 0x40000000.
Definition ARM_OPCMPCMN  := 0x80000000.
Definition ARM_PCR       := 0x100000000.
Definition ARM_OPADDSUB  := 0x200000000.

Definition flags (l : list Z) : Z := fold_right Z.lor 0 l.
Definition chr (n : nat) : string := String (ascii_of_nat n) EmptyString.

(** [struct tArmOpcode]: Archs/ARM/ArmOpcodes.h 59-66. *)
Record arm_opcode := mkArmOp {
  op_name : string; op_mask : string; op_encoding : Z; op_type : Z; op_flags : Z }.

(** [Opcode.flags & FLAG]. *)
Definition hasf (f flag : Z) : bool := negb (Z.land f flag =? 0).
Definition has (o : arm_opcode) (flag : Z) : bool := hasf (op_flags o) flag.

(** [LdmModes]/[StmModes]: Archs/ARM/ArmOpcodes.cpp 8-9. *)
Definition LdmModes (a : Z) : Z := nth (Z.to_nat a) [3;1;2;0;3;1;2;0] 0.
Definition StmModes (a : Z) : Z := nth (Z.to_nat a) [3;1;2;0;0;2;1;3] 0.

Local Open Scope string_scope.
(** [ArmOpcodes]: Archs/ARM/ArmOpcodes.cpp 33-253, one entry per table row, same order. *)
Definition ArmOpcodes : list arm_opcode := [
  mkArmOp "bxC" "n1" 0x012fff10 ARM_TYPE3 (flags [ARM_N]);
  mkArmOp "blxC" "n1" 0x012fff30 ARM_TYPE3 (flags [ARM_ARM9; ARM_N]);
  mkArmOp "bC" "/#I" 0x0a000000 ARM_TYPE4 (flags [ARM_BRANCH; ARM_IMMEDIATE; ARM_WORD]);
  mkArmOp "blC" "/#I" 0x0b000000 ARM_TYPE4 (flags [ARM_BRANCH; ARM_IMMEDIATE; ARM_WORD]);
  mkArmOp "blx" "/#I" 0xfa000000 ARM_TYPE4 (flags [ARM_ARM9; ARM_BRANCH; ARM_UNCOND; ARM_IMMEDIATE; ARM_HALFWORD; ARM_EXCHANGE]);
  mkArmOp "andCS" "d0,n0,m0S0" 0x00000000 ARM_TYPE5 (flags [ARM_REGISTER; ARM_D; ARM_M; ARM_N]);
  mkArmOp "andCS" "d0,m0S0" 0x00000000 ARM_TYPE5 (flags [ARM_REGISTER; ARM_D; ARM_M; ARM_N; ARM_DN]);
  mkArmOp "andCS" "d0,n0,/#i" 0x02000000 ARM_TYPE5 (flags [ARM_SHIFT; ARM_D; ARM_IMMEDIATE; ARM_N; ARM_OPTIMIZE; ARM_OPANDBIC]);
  mkArmOp "andCS" "d0,/#i" 0x02000000 ARM_TYPE5 (flags [ARM_SHIFT; ARM_D; ARM_IMMEDIATE; ARM_N; ARM_DN; ARM_OPTIMIZE; ARM_OPANDBIC]);
  mkArmOp "eorCS" "d0,n0,m0S0" 0x00200000 ARM_TYPE5 (flags [ARM_REGISTER; ARM_D; ARM_M; ARM_N]);
  mkArmOp "eorCS" "d0,m0S0" 0x00200000 ARM_TYPE5 (flags [ARM_REGISTER; ARM_D; ARM_M; ARM_N; ARM_DN]);
  mkArmOp "xorCS" "d0,n0,m0S0" 0x00200000 ARM_TYPE5 (flags [ARM_REGISTER; ARM_D; ARM_M; ARM_N]);
  mkArmOp "xorCS" "d0,m0S0" 0x00200000 ARM_TYPE5 (flags [ARM_REGISTER; ARM_D; ARM_M; ARM_N; ARM_DN]);
  mkArmOp "eorCS" "d0,n0,/#i" 0x02200000 ARM_TYPE5 (flags [ARM_SHIFT; ARM_D; ARM_IMMEDIATE; ARM_N]);
  mkArmOp "eorCS" "d0,/#i" 0x02200000 ARM_TYPE5 (flags [ARM_SHIFT; ARM_D; ARM_IMMEDIATE; ARM_N; ARM_DN]);
  mkArmOp "xorCS" "d0,n0,/#i" 0x02200000 ARM_TYPE5 (flags [ARM_SHIFT; ARM_D; ARM_IMMEDIATE; ARM_N]);
  mkArmOp "xorCS" "d0,/#i" 0x02200000 ARM_TYPE5 (flags [ARM_SHIFT; ARM_D; ARM_IMMEDIATE; ARM_N; ARM_DN]);
  mkArmOp "subCS" "d0,n0,m0S0" 0x00400000 ARM_TYPE5 (flags [ARM_REGISTER; ARM_D; ARM_M; ARM_N]);
  mkArmOp "subCS" "d0,m0S0" 0x00400000 ARM_TYPE5 (flags [ARM_REGISTER; ARM_D; ARM_M; ARM_N; ARM_DN]);
  mkArmOp "subCS" "d0,n0,/#i" 0x02400000 ARM_TYPE5 (flags [ARM_SHIFT; ARM_D; ARM_IMMEDIATE; ARM_N; ARM_OPTIMIZE; ARM_OPADDSUB]);
  mkArmOp "subCS" "d0,/#i" 0x02400000 ARM_TYPE5 (flags [ARM_SHIFT; ARM_D; ARM_IMMEDIATE; ARM_N; ARM_DN; ARM_OPTIMIZE; ARM_OPADDSUB]);
  mkArmOp "rsbCS" "d0,n0,m0S0" 0x00600000 ARM_TYPE5 (flags [ARM_REGISTER; ARM_D; ARM_M; ARM_N]);
  mkArmOp "rsbCS" "d0,m0S0" 0x00600000 ARM_TYPE5 (flags [ARM_REGISTER; ARM_D; ARM_M; ARM_N; ARM_DN]);
  mkArmOp "rsbCS" "d0,n0,/#i" 0x02600000 ARM_TYPE5 (flags [ARM_SHIFT; ARM_D; ARM_IMMEDIATE; ARM_N]);
  mkArmOp "rsbCS" "d0,/#i" 0x02600000 ARM_TYPE5 (flags [ARM_SHIFT; ARM_D; ARM_IMMEDIATE; ARM_N; ARM_DN]);
  mkArmOp "addCS" "d0,n0,m0S0" 0x00800000 ARM_TYPE5 (flags [ARM_REGISTER; ARM_D; ARM_M; ARM_N]);
  mkArmOp "addCS" "d0,m0S0" 0x00800000 ARM_TYPE5 (flags [ARM_REGISTER; ARM_D; ARM_M; ARM_N; ARM_DN]);
  mkArmOp "addCS" "d0,n0,/#i" 0x02800000 ARM_TYPE5 (flags [ARM_SHIFT; ARM_D; ARM_IMMEDIATE; ARM_N; ARM_OPTIMIZE; ARM_OPADDSUB]);
  mkArmOp "addCS" "d0,/#i" 0x02800000 ARM_TYPE5 (flags [ARM_SHIFT; ARM_D; ARM_IMMEDIATE; ARM_N; ARM_DN; ARM_OPTIMIZE; ARM_OPADDSUB]);
  mkArmOp "adcCS" "d0,n0,m0S0" 0x00a00000 ARM_TYPE5 (flags [ARM_REGISTER; ARM_D; ARM_M; ARM_N]);
  mkArmOp "adcCS" "d0,m0S0" 0x00a00000 ARM_TYPE5 (flags [ARM_REGISTER; ARM_D; ARM_M; ARM_N; ARM_DN]);
  mkArmOp "adcCS" "d0,n0,/#i" 0x02a00000 ARM_TYPE5 (flags [ARM_SHIFT; ARM_D; ARM_IMMEDIATE; ARM_N]);
  mkArmOp "adcCS" "d0,/#i" 0x02a00000 ARM_TYPE5 (flags [ARM_SHIFT; ARM_D; ARM_IMMEDIATE; ARM_N; ARM_DN]);
  mkArmOp "sbcCS" "d0,n0,m0S0" 0x00c00000 ARM_TYPE5 (flags [ARM_REGISTER; ARM_D; ARM_M; ARM_N]);
  mkArmOp "sbcCS" "d0,m0S0" 0x00c00000 ARM_TYPE5 (flags [ARM_REGISTER; ARM_D; ARM_M; ARM_N; ARM_DN]);
  mkArmOp "sbcCS" "d0,n0,/#i" 0x02c00000 ARM_TYPE5 (flags [ARM_SHIFT; ARM_D; ARM_IMMEDIATE; ARM_N]);
  mkArmOp "sbcCS" "d0,/#i" 0x02c00000 ARM_TYPE5 (flags [ARM_SHIFT; ARM_D; ARM_IMMEDIATE; ARM_N; ARM_DN]);
  mkArmOp "rscCS" "d0,n0,m0S0" 0x00e00000 ARM_TYPE5 (flags [ARM_REGISTER; ARM_D; ARM_M; ARM_N]);
  mkArmOp "rscCS" "d0,m0S0" 0x00e00000 ARM_TYPE5 (flags [ARM_REGISTER; ARM_D; ARM_M; ARM_N; ARM_DN]);
  mkArmOp "rscCS" "d0,n0,/#i" 0x02e00000 ARM_TYPE5 (flags [ARM_SHIFT; ARM_D; ARM_IMMEDIATE; ARM_N]);
  mkArmOp "rscCS" "d0,/#i" 0x02e00000 ARM_TYPE5 (flags [ARM_SHIFT; ARM_D; ARM_IMMEDIATE; ARM_N; ARM_DN]);
  mkArmOp "tstC" "n0,m0S0" 0x01100000 ARM_TYPE5 (flags [ARM_REGISTER; ARM_M; ARM_N]);
  mkArmOp "tstC" "n0,/#i" 0x03100000 ARM_TYPE5 (flags [ARM_SHIFT; ARM_IMMEDIATE; ARM_N]);
  mkArmOp "teqC" "n0,m0S0" 0x01300000 ARM_TYPE5 (flags [ARM_REGISTER; ARM_M; ARM_N]);
  mkArmOp "teqC" "n0,/#i" 0x03300000 ARM_TYPE5 (flags [ARM_SHIFT; ARM_IMMEDIATE; ARM_N]);
  mkArmOp "cmpC" "n0,m0S0" 0x01500000 ARM_TYPE5 (flags [ARM_REGISTER; ARM_M; ARM_N; ARM_OPTIMIZE; ARM_OPCMPCMN]);
  mkArmOp "cmpC" "n0,/#i" 0x03500000 ARM_TYPE5 (flags [ARM_SHIFT; ARM_IMMEDIATE; ARM_N; ARM_OPTIMIZE; ARM_OPCMPCMN]);
  mkArmOp "cmnC" "n0,m0S0" 0x01700000 ARM_TYPE5 (flags [ARM_REGISTER; ARM_M; ARM_N; ARM_OPTIMIZE; ARM_OPCMPCMN]);
  mkArmOp "cmnC" "n0,/#i" 0x03700000 ARM_TYPE5 (flags [ARM_SHIFT; ARM_IMMEDIATE; ARM_N; ARM_OPTIMIZE; ARM_OPCMPCMN]);
  mkArmOp "orrCS" "d0,n0,m0S0" 0x01800000 ARM_TYPE5 (flags [ARM_REGISTER; ARM_D; ARM_M; ARM_N]);
  mkArmOp "orrCS" "d0,m0S0" 0x01800000 ARM_TYPE5 (flags [ARM_REGISTER; ARM_D; ARM_M; ARM_N; ARM_DN]);
  mkArmOp "orrCS" "d0,n0,/#i" 0x03800000 ARM_TYPE5 (flags [ARM_SHIFT; ARM_D; ARM_IMMEDIATE; ARM_N]);
  mkArmOp "orrCS" "d0,/#i" 0x03800000 ARM_TYPE5 (flags [ARM_SHIFT; ARM_D; ARM_IMMEDIATE; ARM_N; ARM_DN]);
  mkArmOp "movCS" "d0,m0S0" 0x01a00000 ARM_TYPE5 (flags [ARM_REGISTER; ARM_D; ARM_M]);
  mkArmOp "nop" "" 0xe1a00000 ARM_TYPE5 (flags [ARM_UNCOND]);
  mkArmOp "movCS" "d0,/#i" 0x03a00000 ARM_TYPE5 (flags [ARM_SHIFT; ARM_D; ARM_IMMEDIATE; ARM_OPTIMIZE; ARM_OPMOVMVN]);
  mkArmOp "bicCS" "d0,n0,m0S0" 0x01c00000 ARM_TYPE5 (flags [ARM_REGISTER; ARM_D; ARM_M; ARM_N]);
  mkArmOp "bicCS" "d0,m0S0" 0x01c00000 ARM_TYPE5 (flags [ARM_REGISTER; ARM_D; ARM_M; ARM_N; ARM_DN]);
  mkArmOp "bicCS" "d0,n0,/#i" 0x03c00000 ARM_TYPE5 (flags [ARM_SHIFT; ARM_D; ARM_IMMEDIATE; ARM_N; ARM_OPTIMIZE; ARM_OPANDBIC]);
  mkArmOp "bicCS" "d0,/#i" 0x03c00000 ARM_TYPE5 (flags [ARM_SHIFT; ARM_D; ARM_IMMEDIATE; ARM_N; ARM_DN; ARM_OPTIMIZE; ARM_OPANDBIC]);
  mkArmOp "mvnCS" "d0,m0S0" 0x01e00000 ARM_TYPE5 (flags [ARM_REGISTER; ARM_D; ARM_M]);
  mkArmOp "mvnCS" "d0,/#i" 0x03e00000 ARM_TYPE5 (flags [ARM_SHIFT; ARM_D; ARM_IMMEDIATE; ARM_OPTIMIZE; ARM_OPMOVMVN]);
  mkArmOp "addCS" "d1,=/#I" 0x028f0000 ARM_TYPE5 (flags [ARM_SHIFT; ARM_IMMEDIATE; ARM_D; ARM_PCR]);
  mkArmOp "subCS" "d1,=/#I" 0x028f0000 ARM_TYPE5 (flags [ARM_SHIFT; ARM_IMMEDIATE; ARM_D; ARM_PCR]);
  mkArmOp "adrCS" "d1,/#I" 0x028f0000 ARM_TYPE5 (flags [ARM_SHIFT; ARM_IMMEDIATE; ARM_D; ARM_PCR]);
  mkArmOp "lslCS" ("d0,m0,z" ++ chr 0) 0x01a00000 ARM_TYPE5 (flags [ARM_D; ARM_M; ARM_REGISTER]);
  mkArmOp "lslCS" ("d0,z" ++ chr 0) 0x01a00000 ARM_TYPE5 (flags [ARM_D; ARM_M; ARM_DM; ARM_REGISTER]);
  mkArmOp "lsrCS" ("d0,m0,z" ++ chr 1) 0x01a00000 ARM_TYPE5 (flags [ARM_D; ARM_M; ARM_REGISTER]);
  mkArmOp "lsrCS" ("d0,z" ++ chr 1) 0x01a00000 ARM_TYPE5 (flags [ARM_D; ARM_M; ARM_DM; ARM_REGISTER]);
  mkArmOp "asrCS" ("d0,m0,z" ++ chr 2) 0x01a00000 ARM_TYPE5 (flags [ARM_D; ARM_M; ARM_REGISTER]);
  mkArmOp "asrCS" ("d0,z" ++ chr 2) 0x01a00000 ARM_TYPE5 (flags [ARM_D; ARM_M; ARM_DM; ARM_REGISTER]);
  mkArmOp "rorCS" ("d0,m0,z" ++ chr 3) 0x01a00000 ARM_TYPE5 (flags [ARM_D; ARM_M; ARM_REGISTER]);
  mkArmOp "rorCS" ("d0,z" ++ chr 3) 0x01a00000 ARM_TYPE5 (flags [ARM_D; ARM_M; ARM_DM; ARM_REGISTER]);
  mkArmOp "msrC" "P0,m1" 0x0120f000 ARM_TYPE6 (flags [ARM_REGISTER; ARM_M]);
  mkArmOp "movC" "P0,m1" 0x0120f000 ARM_TYPE6 (flags [ARM_REGISTER; ARM_M]);
  mkArmOp "msrC" "P0,/#i" 0x0320f000 ARM_TYPE6 (flags [ARM_IMMEDIATE; ARM_SHIFT]);
  mkArmOp "movC" "P0,/#i" 0x0320f000 ARM_TYPE6 (flags [ARM_IMMEDIATE; ARM_SHIFT]);
  mkArmOp "mrsC" "d1,P1" 0x010f0000 ARM_TYPE6 (flags [ARM_REGISTER; ARM_D; ARM_MRS]);
  mkArmOp "movC" "d1,P1" 0x010f0000 ARM_TYPE6 (flags [ARM_REGISTER; ARM_D; ARM_MRS]);
  mkArmOp "mulCS" "d1,m1,s1" 0x00000090 ARM_TYPE7 (flags [ARM_D; ARM_M; ARM_S]);
  mkArmOp "mulCS" "d1,s1" 0x00000090 ARM_TYPE7 (flags [ARM_D; ARM_M; ARM_S; ARM_DM]);
  mkArmOp "mlaCS" "d1,m1,s1,n1" 0x00200090 ARM_TYPE7 (flags [ARM_D; ARM_M; ARM_S; ARM_N]);
  mkArmOp "mlaCS" "d1,s1,n1" 0x00200090 ARM_TYPE7 (flags [ARM_D; ARM_M; ARM_S; ARM_N; ARM_DM]);
  mkArmOp "umullCS" "n1,d1,m1,s1" 0x00800090 ARM_TYPE7 (flags [ARM_D; ARM_M; ARM_S; ARM_N]);
  mkArmOp "umlalCS" "n1,d1,m1,s1" 0x00a00090 ARM_TYPE7 (flags [ARM_D; ARM_M; ARM_S; ARM_N]);
  mkArmOp "smullCS" "n1,d1,m1,s1" 0x00c00090 ARM_TYPE7 (flags [ARM_D; ARM_M; ARM_S; ARM_N]);
  mkArmOp "smlalCS" "n1,d1,m1,s1" 0x00e00090 ARM_TYPE7 (flags [ARM_D; ARM_M; ARM_S; ARM_N]);
  mkArmOp "smlaXYC" "d1,m1,s1,n1" 0x01000080 ARM_TYPE7 (flags [ARM_D; ARM_M; ARM_S; ARM_N; ARM_X; ARM_Y; ARM_ARM9]);
  mkArmOp "smlawYC" "d1,m1,s1,n1" 0x01200080 ARM_TYPE7 (flags [ARM_D; ARM_M; ARM_S; ARM_N; ARM_Y; ARM_ARM9]);
  mkArmOp "smulwYC" "d1,m1,s1" 0x012000a0 ARM_TYPE7 (flags [ARM_D; ARM_M; ARM_S; ARM_Y; ARM_ARM9]);
  mkArmOp "smlalXYC" "n1,d1,m1,s1" 0x014000a0 ARM_TYPE7 (flags [ARM_D; ARM_M; ARM_S; ARM_N; ARM_X; ARM_Y; ARM_ARM9]);
  mkArmOp "smulXYC" "d1,m1,s1" 0x01600080 ARM_TYPE7 (flags [ARM_D; ARM_M; ARM_S; ARM_X; ARM_Y; ARM_ARM9]);
  mkArmOp "strC" "d0,[n0]" 0x05800000 ARM_TYPE9 (flags [ARM_D; ARM_N]);
  mkArmOp "strC" "d0,[n0,vm1S1]W" 0x07800000 ARM_TYPE9 (flags [ARM_D; ARM_N; ARM_M; ARM_REGISTER; ARM_SIGN]);
  mkArmOp "strC" ("d0,[n0],/#j" ++ chr 12) 0x04800000 ARM_TYPE9 (flags [ARM_D; ARM_N; ARM_IMMEDIATE; ARM_ABS]);
  mkArmOp "strC" "d0,[n0],vm1S1" 0x06800000 ARM_TYPE9 (flags [ARM_D; ARM_N; ARM_REGISTER; ARM_SIGN]);
  mkArmOp "strC" ("d0,[n0,/#j" ++ chr 12 ++ "]W") 0x05800000 ARM_TYPE9 (flags [ARM_D; ARM_N; ARM_IMMEDIATE; ARM_ABS]);
  mkArmOp "ldrC" "d0,[n0]" 0x05900000 ARM_TYPE9 (flags [ARM_D; ARM_N]);
  mkArmOp "ldrC" "d0,[n0,vm1S1]W" 0x07900000 ARM_TYPE9 (flags [ARM_D; ARM_N; ARM_M; ARM_REGISTER; ARM_SIGN]);
  mkArmOp "ldrC" ("d0,[n0,/#j" ++ chr 12 ++ "]W") 0x05900000 ARM_TYPE9 (flags [ARM_D; ARM_N; ARM_IMMEDIATE; ARM_ABS]);
  mkArmOp "ldrC" "d0,[n0],vm1S1" 0x06900000 ARM_TYPE9 (flags [ARM_D; ARM_N; ARM_REGISTER; ARM_SIGN]);
  mkArmOp "ldrC" ("d0,[n0],/#j" ++ chr 12) 0x04900000 ARM_TYPE9 (flags [ARM_D; ARM_N; ARM_IMMEDIATE; ARM_ABS]);
  mkArmOp "strCb" "d0,[n0]" 0x05c00000 ARM_TYPE9 (flags [ARM_D; ARM_N]);
  mkArmOp "strCb" "d0,[n0,vm1S1]W" 0x07c00000 ARM_TYPE9 (flags [ARM_D; ARM_N; ARM_M; ARM_REGISTER; ARM_SIGN]);
  mkArmOp "strCb" ("d0,[n0,/#j" ++ chr 12 ++ "]W") 0x05c00000 ARM_TYPE9 (flags [ARM_D; ARM_N; ARM_IMMEDIATE; ARM_ABS]);
  mkArmOp "strCb" "d0,[n0],vm1S1" 0x06c00000 ARM_TYPE9 (flags [ARM_D; ARM_N; ARM_REGISTER; ARM_SIGN]);
  mkArmOp "strCb" ("d0,[n0],/#j" ++ chr 12) 0x04c00000 ARM_TYPE9 (flags [ARM_D; ARM_N; ARM_IMMEDIATE; ARM_ABS]);
  mkArmOp "ldrCb" "d0,[n0]" 0x05d00000 ARM_TYPE9 (flags [ARM_D; ARM_N]);
  mkArmOp "ldrCb" "d0,[n0,vm1S1]W" 0x07d00000 ARM_TYPE9 (flags [ARM_D; ARM_N; ARM_M; ARM_REGISTER; ARM_SIGN]);
  mkArmOp "ldrCb" ("d0,[n0,/#j" ++ chr 12 ++ "]W") 0x05d00000 ARM_TYPE9 (flags [ARM_D; ARM_N; ARM_IMMEDIATE; ARM_ABS]);
  mkArmOp "ldrCb" "d0,[n0],vm1S1" 0x06d00000 ARM_TYPE9 (flags [ARM_D; ARM_N; ARM_REGISTER; ARM_SIGN]);
  mkArmOp "ldrCb" ("d0,[n0],/#j" ++ chr 12) 0x04d00000 ARM_TYPE9 (flags [ARM_D; ARM_N; ARM_IMMEDIATE; ARM_ABS]);
  mkArmOp "strC" "d0,[n0]!" 0x05a00000 ARM_TYPE9 (flags [ARM_D; ARM_N]);
  mkArmOp "strCt" "d0,[n0]" 0x05a00000 ARM_TYPE9 (flags [ARM_D; ARM_N]);
  mkArmOp "strCt" "d0,[n0],vm1S1" 0x06a00000 ARM_TYPE9 (flags [ARM_D; ARM_N; ARM_REGISTER; ARM_SIGN]);
  mkArmOp "strCt" ("d0,[n0],/#j" ++ chr 12) 0x04a00000 ARM_TYPE9 (flags [ARM_D; ARM_N; ARM_IMMEDIATE; ARM_ABS]);
  mkArmOp "ldrC" "d0,[n0]!" 0x05b00000 ARM_TYPE9 (flags [ARM_D; ARM_N]);
  mkArmOp "ldrCt" "d0,[n0]" 0x05b00000 ARM_TYPE9 (flags [ARM_D; ARM_N]);
  mkArmOp "ldrCt" "d0,[n0],vm1S1" 0x06b00000 ARM_TYPE9 (flags [ARM_D; ARM_N; ARM_REGISTER; ARM_SIGN]);
  mkArmOp "ldrCt" ("d0,[n0],/#j" ++ chr 12) 0x04b00000 ARM_TYPE9 (flags [ARM_D; ARM_N; ARM_IMMEDIATE; ARM_ABS]);
  mkArmOp "strCb" "d0,[n0]!" 0x05e00000 ARM_TYPE9 (flags [ARM_D; ARM_N]);
  mkArmOp "strCbt" "d0,[n0]" 0x05e00000 ARM_TYPE9 (flags [ARM_D; ARM_N]);
  mkArmOp "strCbt" "d0,[n0],vm1S1" 0x06e00000 ARM_TYPE9 (flags [ARM_D; ARM_N; ARM_REGISTER; ARM_SIGN]);
  mkArmOp "strCbt" ("d0,[n0],/#j" ++ chr 12) 0x04e00000 ARM_TYPE9 (flags [ARM_D; ARM_N; ARM_IMMEDIATE; ARM_ABS]);
  mkArmOp "ldrCb" "d0,[n0]!" 0x05f00000 ARM_TYPE9 (flags [ARM_D; ARM_N]);
  mkArmOp "ldrCbt" "d0,[n0]" 0x05f00000 ARM_TYPE9 (flags [ARM_D; ARM_N]);
  mkArmOp "ldrCbt" "d0,[n0],vm1S1" 0x06f00000 ARM_TYPE9 (flags [ARM_D; ARM_N; ARM_REGISTER; ARM_SIGN]);
  mkArmOp "ldrCbt" ("d0,[n0],/#j" ++ chr 12) 0x04f00000 ARM_TYPE9 (flags [ARM_D; ARM_N; ARM_IMMEDIATE; ARM_ABS]);
  mkArmOp "ldrC" ("d0,[/#j" ++ chr 12 ++ "]") 0x059f0000 ARM_TYPE9 (flags [ARM_D; ARM_LOAD; ARM_ABSIMM; ARM_IMMEDIATE]);
  mkArmOp "strC" ("d0,[/#j" ++ chr 12 ++ "]") 0x058f0000 ARM_TYPE9 (flags [ARM_D; ARM_LOAD; ARM_ABSIMM; ARM_IMMEDIATE]);
  mkArmOp "ldrC" "d0,=/#i" 0x059f0000 ARM_TYPE9 (flags [ARM_D; ARM_POOL; ARM_IMMEDIATE]);
  mkArmOp "pld" "[n0]" 0xf5d0f000 ARM_TYPE9 (flags [ARM_ARM9; ARM_UNCOND; ARM_N]);
  mkArmOp "pld" "[n0,vm1S1]" 0xf7d0f000 ARM_TYPE9 (flags [ARM_ARM9; ARM_UNCOND; ARM_N; ARM_M; ARM_REGISTER; ARM_SIGN]);
  mkArmOp "pld" ("[n0,/#j" ++ chr 12 ++ "]") 0xf5d0f000 ARM_TYPE9 (flags [ARM_ARM9; ARM_UNCOND; ARM_N; ARM_IMMEDIATE; ARM_ABS]);
  mkArmOp "strCh" "d0,[n0]" 0x01c000b0 ARM_TYPE10 (flags [ARM_D; ARM_N]);
  mkArmOp "strCh" "d0,[n0,vm1]W" 0x018000b0 ARM_TYPE10 (flags [ARM_D; ARM_N; ARM_REGISTER; ARM_M; ARM_SIGN]);
  mkArmOp "strCh" ("d0,[n0,/#j" ++ chr 8 ++ "]W") 0x01c000b0 ARM_TYPE10 (flags [ARM_D; ARM_N; ARM_IMMEDIATE; ARM_ABS]);
  mkArmOp "strCh" "d0,[n0],vm1" 0x008000b0 ARM_TYPE10 (flags [ARM_D; ARM_N; ARM_REGISTER; ARM_SIGN]);
  mkArmOp "strCh" ("d0,[n0],/#j" ++ chr 8) 0x00c000b0 ARM_TYPE10 (flags [ARM_D; ARM_N; ARM_IMMEDIATE; ARM_ABS]);
  mkArmOp "strCh" ("d0,[/#j" ++ chr 8 ++ "]") 0x01cf00b0 ARM_TYPE10 (flags [ARM_D; ARM_LOAD; ARM_ABSIMM; ARM_IMMEDIATE]);
  mkArmOp "ldrCh" "d0,[n0,m1]" 0x019000b0 ARM_TYPE10 (flags [ARM_D; ARM_N; ARM_REGISTER; ARM_M]);
  mkArmOp "ldrCh" ("d0,[n0],/#j" ++ chr 8) 0x00d000b0 ARM_TYPE10 (flags [ARM_D; ARM_N; ARM_IMMEDIATE; ARM_ABS]);
  mkArmOp "ldrCh" "d0,[n0]" 0x01d000b0 ARM_TYPE10 (flags [ARM_D; ARM_N]);
  mkArmOp "ldrCh" ("d0,[n0,/#j" ++ chr 8 ++ "]") 0x01d000b0 ARM_TYPE10 (flags [ARM_D; ARM_N; ARM_IMMEDIATE; ARM_ABS]);
  mkArmOp "ldrCsb" "d0,[n0,m1]" 0x019000d0 ARM_TYPE10 (flags [ARM_D; ARM_N; ARM_REGISTER; ARM_M]);
  mkArmOp "ldrCsb" ("d0,[n0],/#j" ++ chr 8) 0x00d000d0 ARM_TYPE10 (flags [ARM_D; ARM_N; ARM_IMMEDIATE; ARM_ABS]);
  mkArmOp "ldrCsb" "d0,[n0]" 0x01d000d0 ARM_TYPE10 (flags [ARM_D; ARM_N]);
  mkArmOp "ldrCsb" ("d0,[n0,/#j" ++ chr 8 ++ "]") 0x01d000d0 ARM_TYPE10 (flags [ARM_D; ARM_N; ARM_IMMEDIATE; ARM_ABS]);
  mkArmOp "ldCsb" "d0,[n0,m1]" 0x019000d0 ARM_TYPE10 (flags [ARM_D; ARM_N; ARM_REGISTER; ARM_M]);
  mkArmOp "ldCsb" "d0,[n0]" 0x01d000d0 ARM_TYPE10 (flags [ARM_D; ARM_N]);
  mkArmOp "ldCsb" ("d0,[n0,/#j" ++ chr 8 ++ "]") 0x01d000d0 ARM_TYPE10 (flags [ARM_D; ARM_N; ARM_IMMEDIATE; ARM_ABS]);
  mkArmOp "ldrCsh" "d0,[n0,m1]" 0x019000f0 ARM_TYPE10 (flags [ARM_D; ARM_N; ARM_REGISTER; ARM_M]);
  mkArmOp "ldrCsh" "d0,[n0]" 0x01d000f0 ARM_TYPE10 (flags [ARM_D; ARM_N]);
  mkArmOp "ldrCsh" ("d0,[n0,/#j" ++ chr 8 ++ "]") 0x01d000f0 ARM_TYPE10 (flags [ARM_D; ARM_N; ARM_IMMEDIATE; ARM_ABS]);
  mkArmOp "ldCsh" "d0,[n0,m1]" 0x019000f0 ARM_TYPE10 (flags [ARM_D; ARM_N; ARM_REGISTER; ARM_M]);
  mkArmOp "ldCsh" "d0,[n0]" 0x01d000f0 ARM_TYPE10 (flags [ARM_D; ARM_N]);
  mkArmOp "ldCsh" ("d0,[n0,/#j" ++ chr 8 ++ "]") 0x01d000f0 ARM_TYPE10 (flags [ARM_D; ARM_N; ARM_IMMEDIATE; ARM_ABS]);
  mkArmOp "ldrCd" "d0,[n0,m1]" 0x018000d0 ARM_TYPE10 (flags [ARM_D; ARM_N; ARM_REGISTER; ARM_M; ARM_ARM9]);
  mkArmOp "ldrCd" "d0,[n0]" 0x01c000d0 ARM_TYPE10 (flags [ARM_D; ARM_N; ARM_ARM9]);
  mkArmOp "ldrCd" ("d0,[n0,/#j" ++ chr 8 ++ "]") 0x01c000d0 ARM_TYPE10 (flags [ARM_D; ARM_N; ARM_IMMEDIATE; ARM_ARM9]);
  mkArmOp "strCd" "d0,[n0,m1]" 0x018000f0 ARM_TYPE10 (flags [ARM_D; ARM_N; ARM_REGISTER; ARM_M; ARM_ARM9]);
  mkArmOp "strCd" "d0,[n0]" 0x01c000f0 ARM_TYPE10 (flags [ARM_D; ARM_N; ARM_ARM9]);
  mkArmOp "strCd" ("d0,[n0,/#j" ++ chr 8 ++ "]") 0x01c000f0 ARM_TYPE10 (flags [ARM_D; ARM_N; ARM_IMMEDIATE; ARM_ARM9]);
  mkArmOp "stmCA" "/[n1/]W,/{R/}p" 0x08000000 ARM_TYPE11 (flags [ARM_STORE; ARM_N]);
  mkArmOp "ldmCA" "/[n1/]W,/{R/}p" 0x08100000 ARM_TYPE11 (flags [ARM_LOAD; ARM_N]);
  mkArmOp "pushC" "/{R/}" 0x092d0000 ARM_TYPE11 (flags []);
  mkArmOp "popC" "/{R/}" 0x08bd0000 ARM_TYPE11 (flags []);
  mkArmOp "swpC" "d1,m1,[n1]" 0x01000090 ARM_TYPE12 (flags [ARM_D; ARM_N; ARM_M]);
  mkArmOp "swpC" "d1,[n1]" 0x01000090 ARM_TYPE12 (flags [ARM_D; ARM_N; ARM_M; ARM_DM]);
  mkArmOp "swpCb" "d1,m1,[n1]" 0x01400090 ARM_TYPE12 (flags [ARM_D; ARM_N; ARM_M]);
  mkArmOp "swpCb" "d1,[n1]" 0x01400090 ARM_TYPE12 (flags [ARM_D; ARM_N; ARM_M; ARM_DM]);
  mkArmOp "swiC" ("/#j" ++ chr 24) 0x0f000000 ARM_TYPE13 (flags [ARM_SWI; ARM_IMMEDIATE]);
  mkArmOp "bkpt" ("/#j" ++ chr 16) 0xe1200070 ARM_TYPE13 (flags [ARM_UNCOND; ARM_IMMEDIATE]);
  mkArmOp "cdpC" "X,Y,D,N,M" 0x0e000000 ARM_TYPE14 (flags [ARM_COPOP]);
  mkArmOp "cdpC" "X,Y,D,N,M,Z" 0x0e000000 ARM_TYPE14 (flags [ARM_COPOP; ARM_COPINF]);
  mkArmOp "cdp2" "X,Y,D,N,M" 0xfe000000 ARM_TYPE14 (flags [ARM_ARM9; ARM_UNCOND; ARM_COPOP]);
  mkArmOp "cdp2" "X,Y,D,N,M,Z" 0xfe000000 ARM_TYPE14 (flags [ARM_ARM9; ARM_UNCOND; ARM_COPOP; ARM_COPINF]);
  mkArmOp "mcrC" "X,Y,d1,N,M" 0x0e000010 ARM_TYPE16 (flags [ARM_COPOP]);
  mkArmOp "mcrC" "X,Y,d1,N,M,Z" 0x0e000010 ARM_TYPE16 (flags [ARM_COPOP; ARM_COPINF]);
  mkArmOp "movC" "X,Y,N,M,Z,d1" 0x0e000010 ARM_TYPE16 (flags [ARM_COPOP; ARM_COPINF]);
  mkArmOp "mcr2" "X,Y,d1,N,M" 0xfe000010 ARM_TYPE16 (flags [ARM_ARM9; ARM_COPOP]);
  mkArmOp "mcr2" "X,Y,d1,N,M,Z" 0xfe000010 ARM_TYPE16 (flags [ARM_ARM9; ARM_COPOP; ARM_COPINF]);
  mkArmOp "mrcC" "X,Y,d1,N,M" 0x0e100010 ARM_TYPE16 (flags [ARM_COPOP]);
  mkArmOp "mrcC" "X,Y,d1,N,M,Z" 0x0e100010 ARM_TYPE16 (flags [ARM_COPOP; ARM_COPINF]);
  mkArmOp "movC" "d1,X,Y,N,M,Z" 0x0e100010 ARM_TYPE16 (flags [ARM_COPOP; ARM_COPINF]);
  mkArmOp "mrc2" "X,Y,d1,N,M" 0xfe100010 ARM_TYPE16 (flags [ARM_ARM9; ARM_COPOP]);
  mkArmOp "mrc2" "X,Y,d1,N,M,Z" 0xfe100010 ARM_TYPE16 (flags [ARM_ARM9; ARM_COPOP; ARM_COPINF]);
  mkArmOp "mcrrC" "X,Y,d1,n1,M" 0x0c400000 ARM_TYPE17 (flags [ARM_COPOP]);
  mkArmOp "mrrcC" "X,Y,d1,n1,M" 0x0c500000 ARM_TYPE17 (flags [ARM_COPOP]);
  mkArmOp "clzC" "d1,m1" 0x016f0f10 ARM_MISC (flags [ARM_D; ARM_M; ARM_ARM9]);
  mkArmOp "qaddC" "d1,m1,n1" 0x01000050 ARM_MISC (flags [ARM_D; ARM_N; ARM_M; ARM_ARM9]);
  mkArmOp "qaddC" "d1,n1" 0x01000050 ARM_MISC (flags [ARM_D; ARM_N; ARM_M; ARM_ARM9; ARM_DM]);
  mkArmOp "qsubC" "d1,m1,n1" 0x01200050 ARM_MISC (flags [ARM_D; ARM_N; ARM_M; ARM_ARM9]);
  mkArmOp "qsubC" "d1,n1" 0x01200050 ARM_MISC (flags [ARM_D; ARM_N; ARM_M; ARM_ARM9; ARM_DM]);
  mkArmOp "qdaddC" "d1,m1,n1" 0x01400050 ARM_MISC (flags [ARM_D; ARM_N; ARM_M; ARM_ARM9]);
  mkArmOp "qdaddC" "d1,n1" 0x01400050 ARM_MISC (flags [ARM_D; ARM_N; ARM_M; ARM_ARM9; ARM_DM]);
  mkArmOp "qdsubC" "d1,m1,n1" 0x01600050 ARM_MISC (flags [ARM_D; ARM_N; ARM_M; ARM_ARM9]);
  mkArmOp "qdsubC" "d1,n1" 0x01600050 ARM_MISC (flags [ARM_D; ARM_N; ARM_M; ARM_ARM9; ARM_DM])].
Local Close Scope string_scope.

(** Architecture variants: [ArmArchType], Archs/ARM/Arm.h 13. *)
Inductive arm_arch := AARCH_GBA | AARCH_NDS | AARCH_3DS | AARCH_LITTLE | AARCH_BIG | AARCH_INVALID.

Definition ARM_SHIFT_LSL := 0. (* Archs/ARM/Arm.h 7-11 *)
Definition ARM_SHIFT_LSR := 1.
Definition ARM_SHIFT_ASR := 2.
Definition ARM_SHIFT_ROR := 3.
Definition ARM_SHIFT_RRX := 4.

(** The operands produced by the parser: the part of [ArmOpcodeVariables]
    (Archs/ARM/CArmInstruction.h 7-60) that [Validate] only reads. *)
Record arm_in := mkArmIn {
  i_op : arm_opcode;
  i_c : Z; i_a : Z; i_s : bool; i_x : bool; i_y : bool;
  i_use_shift : bool; i_shift_byreg : bool; i_shift_type : Z; i_shift_reg : Z;
  i_spsr : bool; i_field : Z;
  i_cd : Z; i_cn : Z; i_cm : Z; i_pn : Z;
  i_rs : Z; i_rm : Z; i_rd : Z; i_rn : Z;
  i_psr : bool; i_writeback : bool; i_signplus : bool;
  i_bitlen : Z; i_rlist : Z;
  i_arch : arm_arch }.

(** Results of evaluating the operand expressions in the current state. *)
Inductive imm_value :=
| IInt (z : Z)          (* ExpressionValueType::Integer, 64-bit value *)
| IFloat (bits32 : Z)   (* ExpressionValueType::Float, already as getFloatBits((float) v) *)
| IBad.                 (* anything else *)
Record arm_eval := mkArmEval {
  e_shift : option Z; e_cpop : option Z; e_cpinf : option Z; e_imm : imm_value }.

(** What [Validate] computes and [Encode] uses. *)
Record arm_st := mkArmSt {
  o_rn : Z; o_rm : Z;
  o_final : option (Z * Z);      (* UseFinal, FinalType, FinalShiftAmount *)
  o_shift_amount : Z;            (* Vars.Shift.ShiftAmount *)
  o_cpop : Z; o_cpinf : Z;
  o_imm : Z; o_negative : bool;
  o_newenc : option Z; o_newtype : option Z;
  o_pool : option Z }.           (* value handed to Arm.addPoolValue *)

(** C++ [abs(int)]: undefined for INT_MIN. *)
Definition abs_int (x : Z) : res Z := if x =? -2147483648 then RUb else ROk (Z.abs x).

(** [getShiftedImmediate]: Archs/ARM/CArmInstruction.cpp 37-51.  Result: (rotated byte, ShiftAmount). *)
Definition shl32 (x n : Z) : Z := u32 (Z.shiftl x n).
Definition andval (i : Z) : Z :=
  Z.lor (Z.shiftr 0xFFFFFF00 i) (shl32 0xFFFFFF00 (Z.land (- i) 31)).
Definition rotl_code (num i : Z) : Z :=
  Z.lor (shl32 num i) (Z.shiftr num (Z.land (- i) 31)).
Fixpoint shifted_loop (num i : Z) (n : nat) : option (Z * Z) :=
  match n with
  | O => None
  | S n' =>
    if Z.land num (andval i) =? 0 then Some (rotl_code num i, i)
    else shifted_loop num (i + 2) n'
  end.
Definition getShiftedImmediate (num : Z) : option (Z * Z) := shifted_loop (u32 num) 0 16.

(** [setPoolAddress]: Archs/ARM/CArmInstruction.cpp 53-63.  [None] = "Literal pool out of range". *)
Definition arm_pool_offset (ramPos address : Z) : res Z :=
  let pos := s32 (address - Z.land (ramPos + 8) 0xFFFFFFFD) in
  do a <- abs_int pos;
  if a >? 4095 then RErr else ROk pos.

(** Constant shift handling: Archs/ARM/CArmInstruction.cpp 78-118. *)
Definition validate_shift (mode num : Z) : res (Z * Z) :=
  let check (mode num : Z) : res (Z * Z) :=
    if (num >? 32) || (num <? 0) then RErr else ROk (mode, num) in
  if (num =? 0) && (mode =? ARM_SHIFT_LSR) then check ARM_SHIFT_LSL num
  else if (num =? 0) && (mode =? ARM_SHIFT_ASR) then check ARM_SHIFT_LSL num
  else if (num =? 0) && (mode =? ARM_SHIFT_ROR) then check ARM_SHIFT_LSL num
  else if (num =? 32) && (mode =? ARM_SHIFT_LSR) then check mode 0
  else if (num =? 32) && (mode =? ARM_SHIFT_ASR) then check mode 0
  else if (num =? 32) && (mode =? ARM_SHIFT_LSL) then RErr
  else if mode =? ARM_SHIFT_RRX then
    if negb (num =? 1) then RErr else check ARM_SHIFT_ROR 0
  else check mode num.

(** The opcode substitution of lines 197-223: new encoding and immediate to try. *)
Definition arm_optimize (f enc imm : Z) : Z * Z :=
  if hasf f ARM_OPMOVMVN then (Z.lxor enc 0x0400000, Z.lnot imm)
  else if hasf f ARM_OPANDBIC then (Z.lxor enc 0x1C00000, Z.lnot imm)
  else if hasf f ARM_OPCMPCMN then (Z.lxor enc 0x0200000, s32 (0 - imm))
  else if hasf f ARM_OPADDSUB then (Z.lxor enc 0x0C00000, s32 (0 - imm))
  else (enc, imm).

(** Result of the immediate section: (immediate, shift amount, negative, newenc, newtype, pool). *)
Record arm_imm_out := mkImmOut {
  im_imm : Z; im_shift : Z; im_neg : bool; im_enc : option Z; im_type : option Z; im_pool : option Z }.

(** Shifted immediates: Archs/ARM/CArmInstruction.cpp 171-236.
    [0-immediate] on [int] is undefined for INT_MIN, but then the immediate is encodable and the
    substitution is not tried. *)
Definition validate_shifted (o : arm_opcode) (ramPos imm : Z) : res arm_imm_out :=
  do '(imm, neg) <-
    (if has o ARM_ABS && (imm <? 0) then do a <- abs_int imm; ROk (a, true) else ROk (imm, false));
  do '(imm, enc0) <-
    (if has o ARM_PCR then
       let imm := s32 (imm - Z.land (ramPos + 8) (Z.lnot 3)) in
       if imm <? 0 then
         do a <- abs_int imm; ROk (a, Some (Z.lxor (op_encoding o) 0xC00000))
       else ROk (imm, None)
     else ROk (imm, None));
  match getShiftedImmediate imm with
  | Some (t, s) => ROk (mkImmOut t s neg enc0 None None)
  | None =>
    if has o ARM_OPTIMIZE then
      let '(enc, imm') := arm_optimize (op_flags o) (op_encoding o) imm in
      match getShiftedImmediate imm' with
      | Some (t, s) => ROk (mkImmOut t s neg (Some enc) None None)
      | None => RErr
      end
    else RErr
  end.

(** The rest of the immediate section: Archs/ARM/CArmInstruction.cpp 137-325.
    [advanceMemory(4)] happens on every successful path and is not repeated here. *)
Definition validate_imm (i : arm_in) (ramPos : Z) (v : imm_value) : res arm_imm_out :=
  let o := i_op i in
  do imm <- match v with
            | IInt z => ROk (s32 z)
            | IFloat b => if negb (has o ARM_SHIFT) && negb (has o ARM_POOL) then RErr else ROk (s32 b)
            | IBad => RErr
            end;
  let range (r : arm_imm_out) : res arm_imm_out :=
    (* lines 315-323 *)
    if negb (i_bitlen i =? 32) && negb (has o ARM_ABSIMM) then
      do check <- (if has o ARM_ABS then abs_int (im_imm r) else ROk (im_imm r));
      if u32 check >=? u32 (2 ^ i_bitlen i) then RErr else ROk r
    else ROk r in
  if has o ARM_SHIFT then
    do r <- validate_shifted o ramPos imm; range r
  else if has o ARM_POOL then
    (* ldr =: lines 237-260 *)
    match getShiftedImmediate imm with
    | Some (t, s) => range (mkImmOut t s false (Some 0x03A00000) (Some ARM_TYPE5) None)
    | None =>
      match getShiftedImmediate (Z.lnot imm) with
      | Some (t, s) => range (mkImmOut t s false (Some 0x03E00000) (Some ARM_TYPE5) None)
      | None => range (mkImmOut imm 0 false None None (Some imm))
      end
    end
  else if has o ARM_BRANCH then
    (* lines 261-284 *)
    if (if has o ARM_HALFWORD then negb (Z.land imm 1 =? 0) else negb (Z.land imm 3 =? 0)) then RErr
    else
      let d := s32 (imm - ramPos - 8) in
      do a <- abs_int d;
      if a >=? 0x2000000 then RErr else range (mkImmOut d 0 false None None None)
  else if has o ARM_ABSIMM then
    (* lines 285-292 *)
    let d := s32 (imm - ramPos - 8) in
    do a <- abs_int d;
    if a >=? 2 ^ i_bitlen i then RErr else range (mkImmOut d 0 false None None None)
  else if has o ARM_SWI then
    (* lines 293-300; shifting a negative int is undefined before C++20 *)
    let needsShift := match i_arch i with AARCH_GBA | AARCH_NDS => true | _ => false end in
    if needsShift && (imm <? 0xFF) then
      if imm <? 0 then RUb else range (mkImmOut (s32 (Z.shiftl imm 16)) 0 false None None None)
    else range (mkImmOut imm 0 false None None None)
  else if has o ARM_ABS && (imm <? 0) then
    (* lines 301-305 *)
    do a <- abs_int imm; range (mkImmOut a 0 true None None None)
  else range (mkImmOut imm 0 false None None None).

(** [CArmInstruction::Validate]: Archs/ARM/CArmInstruction.cpp 65-330.  The word-alignment check
    (73-76) is only a warning and is omitted; file position handling is in the layout model. *)
Definition arm_validate (i : arm_in) (ramPos : Z) (e : arm_eval) : res arm_st :=
  let o := i_op i in
  do final <-
    (if i_use_shift i && negb (i_shift_byreg i) then
       match e_shift e with
       | None => RErr
       | Some n => do r <- validate_shift (i_shift_type i) (s32 n); ROk (Some r)
       end
     else ROk None);
  do cpop <-
    (if has o ARM_COPOP then
       match e_cpop e with
       | None => RErr
       | Some n => if s32 n >? 15 then RErr else ROk (s32 n)
       end
     else ROk 0);
  do cpinf <-
    (if has o ARM_COPINF then
       match e_cpinf e with
       | None => RErr
       | Some n => if s32 n >? 7 then RErr else ROk (s32 n)
       end
     else ROk 0);
  let rn := if has o ARM_DN then i_rd i else i_rn i in
  let rm := if has o ARM_DM then i_rd i else i_rm i in
  if has o ARM_RDEVEN && negb (Z.land (i_rd i) 1 =? 0) then RErr
  else if has o ARM_IMMEDIATE then
    do r <- validate_imm i ramPos (e_imm e);
    ROk (mkArmSt rn rm final (im_shift r) cpop cpinf (im_imm r) (im_neg r)
                 (im_enc r) (im_type r) (im_pool r))
  else
    ROk (mkArmSt rn rm final (match e_shift e with Some n => s32 n | None => 0 end)
                 cpop cpinf 0 false None None None).

(** Left shift of an [int]: undefined for negative operands before C++20. *)
Definition shl_int (x n : Z) : res Z := if x <? 0 then RUb else ROk (Z.shiftl x n).

Definition clear_bit (x n : Z) : Z := Z.land x (Z.lnot (Z.shiftl 1 n)).

(** [CArmInstruction::Encode]: Archs/ARM/CArmInstruction.cpp 504-679.  Register numbers are
    non-negative, so their shifts are defined. *)
Definition arm_encode (i : arm_in) (s : arm_st) : res Z :=
  let o := i_op i in
  let enc0 := match o_newenc s with Some e => e | None => op_encoding o end in
  let enc1 := if has o ARM_UNCOND then enc0 else Z.lor enc0 (Z.shiftl (i_c i) 28) in
  let enc := if i_s i then Z.lor enc1 (Z.shiftl 1 20) else enc1 in
  let '(shiftType, shiftAmount) :=
    match o_final s with Some (t, a) => (t, a) | None => (i_shift_type i, o_shift_amount s) end in
  let ty := match o_newtype s with Some t => t | None => op_type o end in
  let orif (b : bool) (x e : Z) := if b then Z.lor e x else e in
  do w <-
    (if ty =? ARM_TYPE3 then ROk (Z.lor enc (o_rn s))
     else if ty =? ARM_TYPE4 then
       let enc := orif (has o ARM_HALFWORD && negb (Z.land (o_imm s) 2 =? 0)) (Z.shiftl 1 24) enc in
       ROk (Z.lor enc (Z.land (Z.shiftr (o_imm s) 2) 0xFFFFFF))
     else if ty =? ARM_TYPE5 then
       let enc := orif (has o ARM_N) (Z.shiftl (o_rn s) 16) enc in
       let enc := orif (has o ARM_D) (Z.shiftl (i_rd i) 12) enc in
       if has o ARM_IMMEDIATE then
         ROk (Z.lor (Z.lor enc (Z.shiftl shiftAmount 7)) (o_imm s))
       else if has o ARM_REGISTER then
         let enc :=
           if i_use_shift i then
             Z.lor (if i_shift_byreg i then
                      Z.lor (Z.lor enc (Z.shiftl (i_shift_reg i) 8)) (Z.shiftl 1 4)
                    else Z.lor enc (Z.shiftl shiftAmount 7))
                   (Z.shiftl shiftType 5)
           else enc in
         ROk (Z.lor enc (o_rm s))
       else ROk enc
     else if ty =? ARM_TYPE6 then
       if has o ARM_MRS then
         ROk (Z.lor (orif (i_spsr i) (Z.shiftl 1 22) enc) (Z.shiftl (i_rd i) 12))
       else
         let enc := Z.lor (orif (i_spsr i) (Z.shiftl 1 22) enc) (Z.shiftl (i_field i) 16) in
         if has o ARM_REGISTER then ROk (Z.lor enc (o_rm s))
         else if has o ARM_IMMEDIATE then
           ROk (Z.lor (Z.lor enc (Z.shiftl shiftAmount 7)) (o_imm s))
         else ROk enc
     else if ty =? ARM_TYPE7 then
       let enc := Z.lor enc (Z.shiftl (i_rd i) 16) in
       let enc := orif (has o ARM_N) (Z.shiftl (o_rn s) 12) enc in
       let enc := Z.lor enc (Z.shiftl (i_rs i) 8) in
       let enc := orif (has o ARM_Y && i_y i) (Z.shiftl 1 6) enc in
       let enc := orif (has o ARM_X && i_x i) (Z.shiftl 1 5) enc in
       ROk (Z.lor enc (o_rm s))
     else if ty =? ARM_TYPE9 then
       let enc := orif (i_writeback i) (Z.shiftl 1 21) enc in
       let enc := orif (has o ARM_N) (Z.shiftl (o_rn s) 16) enc in
       let enc := orif (has o ARM_D) (Z.shiftl (i_rd i) 12) enc in
       let enc := if has o ARM_SIGN && negb (i_signplus i) then clear_bit enc 23 else enc in
       let enc := if has o ARM_ABS && o_negative s then clear_bit enc 23 else enc in
       if has o ARM_IMMEDIATE then
         if o_imm s <? 0 then
           do a <- abs_int (o_imm s); ROk (Z.lor (clear_bit enc 23) a)
         else ROk (Z.lor enc (o_imm s))
       else if has o ARM_REGISTER then
         let enc := if i_use_shift i
                    then Z.lor (Z.lor enc (Z.shiftl shiftAmount 7)) (Z.shiftl shiftType 5)
                    else enc in
         ROk (Z.lor enc (o_rm s))
       else ROk enc
     else if ty =? ARM_TYPE10 then
       let enc := orif (i_writeback i) (Z.shiftl 1 21) enc in
       let enc := Z.lor enc (Z.shiftl (o_rn s) 16) in
       let enc := Z.lor enc (Z.shiftl (i_rd i) 12) in
       let enc := if has o ARM_SIGN && negb (i_signplus i) then clear_bit enc 23 else enc in
       let enc := if has o ARM_ABS && o_negative s then clear_bit enc 23 else enc in
       if has o ARM_IMMEDIATE then
         do p <- (if o_imm s <? 0 then do a <- abs_int (o_imm s); ROk (a, clear_bit enc 23)
                  else ROk (o_imm s, enc));
         let '(imm, enc) := p in
         ROk (Z.lor (Z.lor enc (Z.shiftl (Z.land imm 0xF0) 4)) (Z.land imm 0xF))
       else if has o ARM_REGISTER then ROk (Z.lor enc (o_rm s))
       else ROk enc
     else if ty =? ARM_TYPE11 then
       let enc := if has o ARM_LOAD then Z.lor enc (Z.shiftl (LdmModes (i_a i)) 23)
                  else if has o ARM_STORE then Z.lor enc (Z.shiftl (StmModes (i_a i)) 23)
                  else enc in
       let enc := orif (i_psr i) (Z.shiftl 1 22) enc in
       let enc := orif (i_writeback i) (Z.shiftl 1 21) enc in
       let enc := orif (has o ARM_N) (Z.shiftl (o_rn s) 16) enc in
       ROk (Z.lor enc (i_rlist i))
     else if (ty =? ARM_TYPE12) || (ty =? ARM_MISC) then
       let enc := Z.lor enc (o_rm s) in
       let enc := Z.lor enc (Z.shiftl (i_rd i) 12) in
       ROk (orif (has o ARM_N) (Z.shiftl (o_rn s) 16) enc)
     else if ty =? ARM_TYPE13 then
       if has o ARM_SWI then ROk (Z.lor enc (o_imm s))
       else
         do hi <- shl_int (Z.shiftr (o_imm s) 4) 8;
         ROk (Z.lor (Z.lor enc (Z.land (o_imm s) 0xF)) hi)
     else if ty =? ARM_TYPE14 then
       do enc <- (if has o ARM_COPOP then do x <- shl_int (o_cpop s) 20; ROk (Z.lor enc x) else ROk enc);
       let enc := Z.lor enc (Z.shiftl (i_cn i) 16) in
       let enc := Z.lor enc (Z.shiftl (i_cd i) 12) in
       let enc := Z.lor enc (Z.shiftl (i_pn i) 8) in
       do enc <- (if has o ARM_COPINF then do x <- shl_int (o_cpinf s) 5; ROk (Z.lor enc x) else ROk enc);
       ROk (Z.lor enc (i_cm i))
     else if ty =? ARM_TYPE16 then
       do enc <- (if has o ARM_COPOP then do x <- shl_int (o_cpop s) 21; ROk (Z.lor enc x) else ROk enc);
       let enc := Z.lor enc (Z.shiftl (i_cn i) 16) in
       let enc := Z.lor enc (Z.shiftl (i_rd i) 12) in
       let enc := Z.lor enc (Z.shiftl (i_pn i) 8) in
       do enc <- (if has o ARM_COPINF then do x <- shl_int (o_cpinf s) 5; ROk (Z.lor enc x) else ROk enc);
       ROk (Z.lor enc (i_cm i))
     else if ty =? ARM_TYPE17 then
       let enc := Z.lor enc (Z.shiftl (o_rn s) 16) in
       let enc := Z.lor enc (Z.shiftl (i_rd i) 12) in
       let enc := Z.lor enc (Z.shiftl (i_pn i) 8) in
       do x <- shl_int (o_cpop s) 4;
       ROk (Z.lor (Z.lor enc x) (i_cm i))
     else ROk enc);
  ROk (u32 w).

(** Validate at an address and encode: the word written to the output. *)
Definition arm_assemble (i : arm_in) (ramPos : Z) (e : arm_eval) : res Z :=
  do s <- arm_validate i ramPos e; arm_encode i s.
