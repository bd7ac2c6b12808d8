(** The MIPS opcode and register tables: Archs/MIPS/MipsOpcodes.{h,cpp}, and the register names of
    Archs/MIPS/MipsParser.cpp. *)

Require Import ZArith List String Ascii.
Require Import Verif.ArmModel.
Import ListNotations.
Local Open Scope Z_scope.

(** Instruction sets: MipsOpcodes.h 5-18. *)
Definition MA_MIPS1 := 0x1.
Definition MA_MIPS2 := 0x2.
Definition MA_MIPS3 := 0x4.
Definition MA_MIPS4 := 0x8.
Definition MA_PSX := 0x10.
Definition MA_PS2 := 0x40.
Definition MA_PSP := 0x80.
Definition MA_RSP := 0x100.
Definition MA_EXPSX := 0x1000.
Definition MA_EXN64 := 0x2000.
Definition MA_EXPS2 := 0x4000.
Definition MA_EXPSP := 0x8000.
Definition MA_EXRSP := 0x10000.

(** Opcode flags: MipsOpcodes.h 20-49. *)
Definition MO_IPCA := 0x1.
Definition MO_IPCR := 0x2.
Definition MO_RSD := 0x4.
Definition MO_RST := 0x8.
Definition MO_RDT := 0x10.
Definition MO_DELAY := 0x20.
Definition MO_NODELAYSLOT := 0x40.
Definition MO_DELAYRT := 0x80.
Definition MO_IGNORERTD := 0x100.
Definition MO_FRSD := 0x200.
Definition MO_IMMALIGNED := 0x400.
Definition MO_NEGIMM := 0x800.
Definition MO_64BIT := 0x1000.
Definition MO_FPU := 0x2000.
Definition MO_DFPU := 0x4000.
Definition MO_VFPU := 0x10000.
Definition MO_VFPU_MIXED := 0x20000.
Definition MO_VFPU_6BIT := 0x40000.
Definition MO_VFPU_SINGLE := 0x80000.
Definition MO_VFPU_QUAD := 0x100000.
Definition MO_VFPU_TRANSPOSE_VS := 0x200000.
Definition MO_VFPU_PAIR := 0x400000.
Definition MO_VFPU_TRIPLE := 0x800000.
Definition MO_RSP_VRSD := 0x1000000.
Definition MO_RSP_HWOFFSET := 0x2000000.
Definition MO_RSP_WOFFSET := 0x4000000.
Definition MO_RSP_DWOFFSET := 0x8000000.
Definition MO_RSP_QWOFFSET := 0x10000000.

(** Fields: MipsOpcodes.h 52-100. *)
Definition BITFIELD (start length value : Z) : Z := Z.shiftl (Z.land value (Z.shiftl 1 length - 1)) start.
Definition MIPS_FUNC (v : Z) := BITFIELD 0 6 v.
Definition MIPS_SA (v : Z) := BITFIELD 6 5 v.
Definition MIPS_SECFUNC (v : Z) := MIPS_SA v.
Definition MIPS_OP (v : Z) := BITFIELD 26 6 v.
Definition MIPS_RS (v : Z) := BITFIELD 21 5 v.
Definition MIPS_RT (v : Z) := BITFIELD 16 5 v.
Definition MIPS_RD (v : Z) := BITFIELD 11 5 v.
Definition MIPS_FS (v : Z) := MIPS_RD v.
Definition MIPS_FT (v : Z) := MIPS_RT v.
Definition MIPS_FD (v : Z) := MIPS_SA v.
Definition MIPS_SPECIAL (v : Z) := Z.lor (MIPS_OP 0) (MIPS_FUNC v).
Definition MIPS_REGIMM (v : Z) := Z.lor (MIPS_OP 1) (MIPS_RT v).
Definition MIPS_COP0 (v : Z) := Z.lor (MIPS_OP 16) (MIPS_RS v).
Definition MIPS_COP0FUNCT (v : Z) := Z.lor (MIPS_COP0 16) (MIPS_FUNC v).
Definition MIPS_COP1 (v : Z) := Z.lor (MIPS_OP 17) (MIPS_RS v).
Definition MIPS_COP1BC (v : Z) := Z.lor (MIPS_COP1 8) (MIPS_RT v).
Definition MIPS_COP1S (v : Z) := Z.lor (MIPS_COP1 16) (MIPS_FUNC v).
Definition MIPS_COP1D (v : Z) := Z.lor (MIPS_COP1 17) (MIPS_FUNC v).
Definition MIPS_COP1W (v : Z) := Z.lor (MIPS_COP1 20) (MIPS_FUNC v).
Definition MIPS_COP1L (v : Z) := Z.lor (MIPS_COP1 21) (MIPS_FUNC v).
Definition MIPS_VFPUSIZE (v : Z) := Z.lor (Z.shiftl (Z.land v 1) 7) (Z.shiftl (Z.land v 2) 14).
Definition MIPS_VFPUFUNC (v : Z) := BITFIELD 23 3 v.
Definition MIPS_COP2 (v : Z) := Z.lor (MIPS_OP 18) (MIPS_RS v).
Definition MIPS_COP2BC (v : Z) := Z.lor (MIPS_COP2 8) (MIPS_RT v).
Definition MIPS_RSP_COP2 (v : Z) := Z.lor (Z.lor (MIPS_OP 18) (Z.shiftl 1 25)) (MIPS_FUNC v).
Definition MIPS_RSP_LWC2 (v : Z) := Z.lor (MIPS_OP 50) (MIPS_RD v).
Definition MIPS_RSP_SWC2 (v : Z) := Z.lor (MIPS_OP 58) (MIPS_RD v).
Definition MIPS_RSP_VE (v : Z) := BITFIELD 21 4 v.
Definition MIPS_RSP_VDE (v : Z) := BITFIELD 11 4 v.
Definition MIPS_RSP_VEALT (v : Z) := BITFIELD 7 4 v.
Definition MIPS_VFPU0 (v : Z) := Z.lor (MIPS_OP 24) (MIPS_VFPUFUNC v).
Definition MIPS_VFPU1 (v : Z) := Z.lor (MIPS_OP 25) (MIPS_VFPUFUNC v).
Definition MIPS_VFPU3 (v : Z) := Z.lor (MIPS_OP 27) (MIPS_VFPUFUNC v).
Definition MIPS_SPECIAL3 (v : Z) := Z.lor (MIPS_OP 31) (MIPS_FUNC v).
Definition MIPS_ALLEGREX0 (v : Z) := Z.lor (MIPS_SPECIAL3 32) (MIPS_SECFUNC v).
Definition MIPS_VFPU4 (v : Z) := Z.lor (MIPS_OP 52) (MIPS_RS v).
Definition MIPS_VFPU4_11 (v : Z) := Z.lor (MIPS_VFPU4 0) (MIPS_RT v).
Definition MIPS_VFPU4_12 (v : Z) := Z.lor (MIPS_VFPU4 1) (MIPS_RT v).
Definition MIPS_VFPU4_13 (v : Z) := Z.lor (MIPS_VFPU4 2) (MIPS_RT v).
Definition MIPS_VFPU5 (v : Z) := Z.lor (MIPS_OP 55) (MIPS_VFPUFUNC v).
Definition MIPS_VFPU6 (v : Z) := Z.lor (MIPS_OP 60) (MIPS_VFPUFUNC v).
Definition MIPS_VFPU6_1 (v : Z) := Z.lor (MIPS_VFPU6 7) (BITFIELD 20 3 v).
Definition MIPS_VFPU6_1VROT := Z.lor (MIPS_VFPU6 7) (BITFIELD 21 2 1).
Definition MIPS_VFPU6_2 (v : Z) := Z.lor (MIPS_VFPU6_1 0) (MIPS_RT v).

(** [struct tMipsOpcode]: MipsOpcodes.h 113-120.  [destencoding] is an int32_t; here it is the same
    32 bits taken as a number that is not negative. *)
Record mips_opcode := mkMipsOp {
  m_name : string; m_encoding : string; m_dest : Z; m_archs : Z; m_flags : Z }.

(** [opcode.flags & FLAG]. *)
Definition mhas (o : mips_opcode) (flag : Z) : bool := hasf (m_flags o) flag.

Local Open Scope string_scope.
(** [MipsOpcodes]: MipsOpcodes.cpp 17-1037, one entry per table row, same order.  The encoding
    strings of the rows with a forced register contain the character 0. *)
Definition MipsOpcodes : list mips_opcode := [
  mkMipsOp "j" "i26" (MIPS_OP 0x02) (flags [MA_MIPS1]) (flags [MO_IPCA; MO_DELAY; MO_NODELAYSLOT]);
  mkMipsOp "jal" "i26" (MIPS_OP 0x03) (flags [MA_MIPS1]) (flags [MO_IPCA; MO_DELAY; MO_NODELAYSLOT]);
  mkMipsOp "beq" "s,t,i16" (MIPS_OP 0x04) (flags [MA_MIPS1]) (flags [MO_IPCR; MO_DELAY; MO_NODELAYSLOT]);
  mkMipsOp "beqz" "s,i16" (MIPS_OP 0x04) (flags [MA_MIPS1]) (flags [MO_IPCR; MO_DELAY; MO_NODELAYSLOT]);
  mkMipsOp "b" "i16" (MIPS_OP 0x04) (flags [MA_MIPS1]) (flags [MO_IPCR; MO_DELAY; MO_NODELAYSLOT]);
  mkMipsOp "bne" "s,t,i16" (MIPS_OP 0x05) (flags [MA_MIPS1]) (flags [MO_IPCR; MO_DELAY; MO_NODELAYSLOT]);
  mkMipsOp "bnez" "s,i16" (MIPS_OP 0x05) (flags [MA_MIPS1]) (flags [MO_IPCR; MO_DELAY; MO_NODELAYSLOT]);
  mkMipsOp "blez" "s,i16" (MIPS_OP 0x06) (flags [MA_MIPS1]) (flags [MO_IPCR; MO_DELAY; MO_NODELAYSLOT]);
  mkMipsOp "bgtz" "s,i16" (MIPS_OP 0x07) (flags [MA_MIPS1]) (flags [MO_IPCR; MO_DELAY; MO_NODELAYSLOT]);
  mkMipsOp "addi" "t,s,i16" (MIPS_OP 0x08) (flags [MA_MIPS1]) (flags [MO_IGNORERTD]);
  mkMipsOp "addi" "s,i16" (MIPS_OP 0x08) (flags [MA_MIPS1]) (flags [MO_RST]);
  mkMipsOp "subi" "t,s,i16" (MIPS_OP 0x08) (flags [MA_MIPS1]) (flags [MO_IGNORERTD; MO_NEGIMM]);
  mkMipsOp "subi" "s,i16" (MIPS_OP 0x08) (flags [MA_MIPS1]) (flags [MO_RST; MO_NEGIMM]);
  mkMipsOp "addiu" "t,s,i16" (MIPS_OP 0x09) (flags [MA_MIPS1]) (flags [MO_IGNORERTD]);
  mkMipsOp "addiu" "s,i16" (MIPS_OP 0x09) (flags [MA_MIPS1]) (flags [MO_RST]);
  mkMipsOp "subiu" "t,s,i16" (MIPS_OP 0x09) (flags [MA_MIPS1]) (flags [MO_IGNORERTD; MO_NEGIMM]);
  mkMipsOp "subiu" "s,i16" (MIPS_OP 0x09) (flags [MA_MIPS1]) (flags [MO_RST; MO_NEGIMM]);
  mkMipsOp "slti" "t,s,i16" (MIPS_OP 0x0A) (flags [MA_MIPS1]) (flags [MO_IGNORERTD]);
  mkMipsOp "slti" "s,i16" (MIPS_OP 0x0A) (flags [MA_MIPS1]) (flags [MO_RST]);
  mkMipsOp "sltiu" "t,s,i16" (MIPS_OP 0x0B) (flags [MA_MIPS1]) (flags [MO_IGNORERTD]);
  mkMipsOp "sltiu" "s,i16" (MIPS_OP 0x0B) (flags [MA_MIPS1]) (flags [MO_RST]);
  mkMipsOp "andi" "t,s,i16" (MIPS_OP 0x0C) (flags [MA_MIPS1]) (flags [MO_IGNORERTD]);
  mkMipsOp "andi" "s,i16" (MIPS_OP 0x0C) (flags [MA_MIPS1]) (flags [MO_RST]);
  mkMipsOp "ori" "t,s,i16" (MIPS_OP 0x0D) (flags [MA_MIPS1]) (flags [MO_IGNORERTD]);
  mkMipsOp "ori" "s,i16" (MIPS_OP 0x0D) (flags [MA_MIPS1]) (flags [MO_RST]);
  mkMipsOp "xori" "t,s,i16" (MIPS_OP 0x0E) (flags [MA_MIPS1]) (flags [MO_IGNORERTD]);
  mkMipsOp "xori" "s,i16" (MIPS_OP 0x0E) (flags [MA_MIPS1]) (flags [MO_RST]);
  mkMipsOp "lui" "t,i16" (MIPS_OP 0x0F) (flags [MA_MIPS1]) (flags [MO_IGNORERTD]);
  mkMipsOp "cop2" "i25" (Z.lor (MIPS_OP 0x12) (Z.shiftl 1 25)) (flags [MA_PSX]) (flags []);
  mkMipsOp "beql" "s,t,i16" (MIPS_OP 0x14) (flags [MA_MIPS2]) (flags [MO_IPCR; MO_DELAY; MO_NODELAYSLOT]);
  mkMipsOp "beqzl" "s,i16" (MIPS_OP 0x14) (flags [MA_MIPS2]) (flags [MO_IPCR; MO_DELAY; MO_NODELAYSLOT]);
  mkMipsOp "bnel" "s,t,i16" (MIPS_OP 0x15) (flags [MA_MIPS2]) (flags [MO_IPCR; MO_DELAY; MO_NODELAYSLOT]);
  mkMipsOp "bnezl" "s,i16" (MIPS_OP 0x15) (flags [MA_MIPS2]) (flags [MO_IPCR; MO_DELAY; MO_NODELAYSLOT]);
  mkMipsOp "blezl" "s,i16" (MIPS_OP 0x16) (flags [MA_MIPS2]) (flags [MO_IPCR; MO_DELAY; MO_NODELAYSLOT]);
  mkMipsOp "bgtzl" "s,i16" (MIPS_OP 0x17) (flags [MA_MIPS2]) (flags [MO_IPCR; MO_DELAY; MO_NODELAYSLOT]);
  mkMipsOp "daddi" "t,s,i16" (MIPS_OP 0x18) (flags [MA_MIPS3]) (flags [MO_64BIT]);
  mkMipsOp "daddi" "s,i16" (MIPS_OP 0x18) (flags [MA_MIPS3]) (flags [MO_64BIT; MO_RST]);
  mkMipsOp "dsubi" "t,s,i16" (MIPS_OP 0x18) (flags [MA_MIPS3]) (flags [MO_64BIT; MO_NEGIMM]);
  mkMipsOp "dsubi" "s,i16" (MIPS_OP 0x18) (flags [MA_MIPS3]) (flags [MO_64BIT; MO_RST; MO_NEGIMM]);
  mkMipsOp "daddiu" "t,s,i16" (MIPS_OP 0x19) (flags [MA_MIPS3]) (flags [MO_64BIT]);
  mkMipsOp "daddiu" "s,i16" (MIPS_OP 0x19) (flags [MA_MIPS3]) (flags [MO_64BIT; MO_RST]);
  mkMipsOp "dsubiu" "t,s,i16" (MIPS_OP 0x19) (flags [MA_MIPS3]) (flags [MO_64BIT; MO_NEGIMM]);
  mkMipsOp "dsubiu" "s,i16" (MIPS_OP 0x19) (flags [MA_MIPS3]) (flags [MO_64BIT; MO_RST; MO_NEGIMM]);
  mkMipsOp "ldl" "t,i16(s)" (MIPS_OP 0x1A) (flags [MA_MIPS3]) (flags [MO_64BIT; MO_DELAYRT; MO_IGNORERTD]);
  mkMipsOp "ldl" "t,(s)" (MIPS_OP 0x1A) (flags [MA_MIPS3]) (flags [MO_64BIT; MO_DELAYRT; MO_IGNORERTD]);
  mkMipsOp "ldr" "t,i16(s)" (MIPS_OP 0x1B) (flags [MA_MIPS3]) (flags [MO_64BIT; MO_DELAYRT; MO_IGNORERTD]);
  mkMipsOp "ldr" "t,(s)" (MIPS_OP 0x1B) (flags [MA_MIPS3]) (flags [MO_64BIT; MO_DELAYRT; MO_IGNORERTD]);
  mkMipsOp "lq" "t,i16(s)" (MIPS_OP 0x1E) (flags [MA_PS2]) (flags [MO_DELAYRT; MO_IGNORERTD]);
  mkMipsOp "lq" "t,(s)" (MIPS_OP 0x1E) (flags [MA_PS2]) (flags [MO_DELAYRT; MO_IGNORERTD]);
  mkMipsOp "sq" "t,i16(s)" (MIPS_OP 0x1F) (flags [MA_PS2]) (flags [MO_DELAYRT; MO_IGNORERTD]);
  mkMipsOp "sq" "t,(s)" (MIPS_OP 0x1F) (flags [MA_PS2]) (flags [MO_DELAYRT; MO_IGNORERTD]);
  mkMipsOp "lb" "t,i16(s)" (MIPS_OP 0x20) (flags [MA_MIPS1]) (flags [MO_DELAYRT; MO_IGNORERTD]);
  mkMipsOp "lb" "t,(s)" (MIPS_OP 0x20) (flags [MA_MIPS1]) (flags [MO_DELAYRT; MO_IGNORERTD]);
  mkMipsOp "lh" "t,i16(s)" (MIPS_OP 0x21) (flags [MA_MIPS1]) (flags [MO_DELAYRT; MO_IGNORERTD]);
  mkMipsOp "lh" "t,(s)" (MIPS_OP 0x21) (flags [MA_MIPS1]) (flags [MO_DELAYRT; MO_IGNORERTD]);
  mkMipsOp "lwl" "t,i16(s)" (MIPS_OP 0x22) (flags [MA_MIPS1; MA_EXRSP]) (flags [MO_DELAYRT; MO_IGNORERTD]);
  mkMipsOp "lwl" "t,(s)" (MIPS_OP 0x22) (flags [MA_MIPS1; MA_EXRSP]) (flags [MO_DELAYRT; MO_IGNORERTD]);
  mkMipsOp "lw" "t,i16(s)" (MIPS_OP 0x23) (flags [MA_MIPS1]) (flags [MO_DELAYRT; MO_IGNORERTD]);
  mkMipsOp "lw" "t,(s)" (MIPS_OP 0x23) (flags [MA_MIPS1]) (flags [MO_DELAYRT; MO_IGNORERTD]);
  mkMipsOp "lbu" "t,i16(s)" (MIPS_OP 0x24) (flags [MA_MIPS1]) (flags [MO_DELAYRT; MO_IGNORERTD]);
  mkMipsOp "lbu" "t,(s)" (MIPS_OP 0x24) (flags [MA_MIPS1]) (flags [MO_DELAYRT; MO_IGNORERTD]);
  mkMipsOp "lhu" "t,i16(s)" (MIPS_OP 0x25) (flags [MA_MIPS1]) (flags [MO_DELAYRT; MO_IGNORERTD]);
  mkMipsOp "lhu" "t,(s)" (MIPS_OP 0x25) (flags [MA_MIPS1]) (flags [MO_DELAYRT; MO_IGNORERTD]);
  mkMipsOp "lwr" "t,i16(s)" (MIPS_OP 0x26) (flags [MA_MIPS1; MA_EXRSP]) (flags [MO_DELAYRT; MO_IGNORERTD]);
  mkMipsOp "lwr" "t,(s)" (MIPS_OP 0x26) (flags [MA_MIPS1; MA_EXRSP]) (flags [MO_DELAYRT; MO_IGNORERTD]);
  mkMipsOp "lwu" "t,i16(s)" (MIPS_OP 0x27) (flags [MA_MIPS3]) (flags [MO_64BIT; MO_DELAYRT]);
  mkMipsOp "lwu" "t,(s)" (MIPS_OP 0x27) (flags [MA_MIPS3]) (flags [MO_64BIT; MO_DELAYRT]);
  mkMipsOp "sb" "t,i16(s)" (MIPS_OP 0x28) (flags [MA_MIPS1]) (flags []);
  mkMipsOp "sb" "t,(s)" (MIPS_OP 0x28) (flags [MA_MIPS1]) (flags []);
  mkMipsOp "sh" "t,i16(s)" (MIPS_OP 0x29) (flags [MA_MIPS1]) (flags []);
  mkMipsOp "sh" "t,(s)" (MIPS_OP 0x29) (flags [MA_MIPS1]) (flags []);
  mkMipsOp "swl" "t,i16(s)" (MIPS_OP 0x2A) (flags [MA_MIPS1; MA_EXRSP]) (flags []);
  mkMipsOp "swl" "t,(s)" (MIPS_OP 0x2A) (flags [MA_MIPS1; MA_EXRSP]) (flags []);
  mkMipsOp "sw" "t,i16(s)" (MIPS_OP 0x2B) (flags [MA_MIPS1]) (flags []);
  mkMipsOp "sw" "t,(s)" (MIPS_OP 0x2B) (flags [MA_MIPS1]) (flags []);
  mkMipsOp "sdl" "t,i16(s)" (MIPS_OP 0x2C) (flags [MA_MIPS3]) (flags [MO_64BIT]);
  mkMipsOp "sdl" "t,(s)" (MIPS_OP 0x2C) (flags [MA_MIPS3]) (flags [MO_64BIT]);
  mkMipsOp "sdr" "t,i16(s)" (MIPS_OP 0x2D) (flags [MA_MIPS3]) (flags [MO_64BIT; MO_IGNORERTD]);
  mkMipsOp "sdr" "t,(s)" (MIPS_OP 0x2D) (flags [MA_MIPS3]) (flags [MO_64BIT; MO_IGNORERTD]);
  mkMipsOp "swr" "t,i16(s)" (MIPS_OP 0x2E) (flags [MA_MIPS1; MA_EXRSP]) (flags []);
  mkMipsOp "swr" "t,(s)" (MIPS_OP 0x2E) (flags [MA_MIPS1; MA_EXRSP]) (flags []);
  mkMipsOp "cache" "jc,i16(s)" (MIPS_OP 0x2F) (flags [MA_MIPS2]) (flags []);
  mkMipsOp "cache" "jc,(s)" (MIPS_OP 0x2F) (flags [MA_MIPS2]) (flags []);
  mkMipsOp "ll" "t,i16(s)" (MIPS_OP 0x30) (flags [MA_MIPS2]) (flags [MO_DELAYRT; MO_IGNORERTD]);
  mkMipsOp "ll" "t,(s)" (MIPS_OP 0x30) (flags [MA_MIPS2]) (flags [MO_DELAYRT; MO_IGNORERTD]);
  mkMipsOp "lwc1" "T,i16(s)" (MIPS_OP 0x31) (flags [MA_MIPS1]) (flags [MO_FPU]);
  mkMipsOp "lwc1" "T,(s)" (MIPS_OP 0x31) (flags [MA_MIPS1]) (flags [MO_FPU]);
  mkMipsOp "l.s" "T,i16(s)" (MIPS_OP 0x31) (flags [MA_MIPS1]) (flags [MO_FPU]);
  mkMipsOp "l.s" "T,(s)" (MIPS_OP 0x31) (flags [MA_MIPS1]) (flags [MO_FPU]);
  mkMipsOp "lwc2" "gt,i16(s)" (MIPS_OP 0x32) (flags [MA_PSX]) (flags []);
  mkMipsOp "lwc2" "gt,(s)" (MIPS_OP 0x32) (flags [MA_PSX]) (flags []);
  mkMipsOp "lv.s" "vt,i16(s)" (MIPS_OP 0x32) (flags [MA_PSP]) (flags [MO_VFPU_SINGLE; MO_VFPU_MIXED; MO_IMMALIGNED]);
  mkMipsOp "lv.s" "vt,(s)" (MIPS_OP 0x32) (flags [MA_PSP]) (flags [MO_VFPU_SINGLE; MO_VFPU_MIXED]);
  mkMipsOp "lld" "t,i16(s)" (MIPS_OP 0x34) (flags [MA_MIPS3]) (flags [MO_64BIT; MO_DELAYRT]);
  mkMipsOp "lld" "t,(s)" (MIPS_OP 0x34) (flags [MA_MIPS3]) (flags [MO_64BIT; MO_DELAYRT]);
  mkMipsOp "ldc1" "T,i16(s)" (MIPS_OP 0x35) (flags [MA_MIPS2]) (flags [MO_DFPU]);
  mkMipsOp "ldc1" "T,(s)" (MIPS_OP 0x35) (flags [MA_MIPS2]) (flags [MO_DFPU]);
  mkMipsOp "l.d" "T,i16(s)" (MIPS_OP 0x35) (flags [MA_MIPS2]) (flags [MO_DFPU]);
  mkMipsOp "l.d" "T,(s)" (MIPS_OP 0x35) (flags [MA_MIPS2]) (flags [MO_DFPU]);
  mkMipsOp "ulv.q" "vt,i16(s)" (MIPS_OP 0x35) (flags [MA_PSP]) (flags [MO_VFPU_QUAD; MO_VFPU_MIXED; MO_IMMALIGNED]);
  mkMipsOp "ulv.q" "vt,(s)" (MIPS_OP 0x35) (flags [MA_PSP]) (flags [MO_VFPU_QUAD; MO_VFPU_MIXED]);
  mkMipsOp "lvl.q" "vt,i16(s)" (MIPS_OP 0x35) (flags [MA_PSP]) (flags [MO_VFPU_QUAD; MO_VFPU_MIXED; MO_VFPU_6BIT; MO_IMMALIGNED]);
  mkMipsOp "lvl.q" "vt,(s)" (MIPS_OP 0x35) (flags [MA_PSP]) (flags [MO_VFPU_QUAD; MO_VFPU_MIXED; MO_VFPU_6BIT]);
  mkMipsOp "lvr.q" "vt,i16(s)" (Z.lor (MIPS_OP 0x35) 0x02) (flags [MA_PSP]) (flags [MO_VFPU_QUAD; MO_VFPU_MIXED; MO_VFPU_6BIT; MO_IMMALIGNED]);
  mkMipsOp "lvr.q" "vt,(s)" (Z.lor (MIPS_OP 0x35) 0x02) (flags [MA_PSP]) (flags [MO_VFPU_QUAD; MO_VFPU_MIXED; MO_VFPU_6BIT]);
  mkMipsOp "lv.q" "vt,i16(s)" (MIPS_OP 0x36) (flags [MA_PSP]) (flags [MO_VFPU_QUAD; MO_VFPU_MIXED; MO_VFPU_6BIT; MO_IMMALIGNED]);
  mkMipsOp "lv.q" "vt,(s)" (MIPS_OP 0x36) (flags [MA_PSP]) (flags [MO_VFPU_QUAD; MO_VFPU_MIXED; MO_VFPU_6BIT]);
  mkMipsOp "lqc2" "Vt,i16(s)" (MIPS_OP 0x36) (flags [MA_PS2]) (flags [MO_DELAYRT]);
  mkMipsOp "ld" "t,i16(s)" (MIPS_OP 0x37) (flags [MA_MIPS3]) (flags [MO_64BIT; MO_DELAYRT]);
  mkMipsOp "ld" "t,(s)" (MIPS_OP 0x37) (flags [MA_MIPS3]) (flags [MO_64BIT; MO_DELAYRT]);
  mkMipsOp "sc" "t,i16(s)" (MIPS_OP 0x38) (flags [MA_MIPS2]) (flags []);
  mkMipsOp "sc" "t,(s)" (MIPS_OP 0x38) (flags [MA_MIPS2]) (flags []);
  mkMipsOp "swc1" "T,i16(s)" (MIPS_OP 0x39) (flags [MA_MIPS1]) (flags [MO_FPU]);
  mkMipsOp "swc1" "T,(s)" (MIPS_OP 0x39) (flags [MA_MIPS1]) (flags [MO_FPU]);
  mkMipsOp "s.s" "T,i16(s)" (MIPS_OP 0x39) (flags [MA_MIPS1]) (flags [MO_FPU]);
  mkMipsOp "s.s" "T,(s)" (MIPS_OP 0x39) (flags [MA_MIPS1]) (flags [MO_FPU]);
  mkMipsOp "swc2" "gt,i16(s)" (MIPS_OP 0x3A) (flags [MA_PSX]) (flags []);
  mkMipsOp "swc2" "gt,(s)" (MIPS_OP 0x3A) (flags [MA_PSX]) (flags []);
  mkMipsOp "sv.s" "vt,i16(s)" (MIPS_OP 0x3A) (flags [MA_PSP]) (flags [MO_VFPU_SINGLE; MO_VFPU_MIXED; MO_IMMALIGNED]);
  mkMipsOp "sv.s" "vt,(s)" (MIPS_OP 0x3A) (flags [MA_PSP]) (flags [MO_VFPU_SINGLE; MO_VFPU_MIXED]);
  mkMipsOp "scd" "t,i16(s)" (MIPS_OP 0x3C) (flags [MA_MIPS3]) (flags [MO_64BIT; MO_DELAYRT]);
  mkMipsOp "scd" "t,(s)" (MIPS_OP 0x3C) (flags [MA_MIPS3]) (flags [MO_64BIT; MO_DELAYRT]);
  mkMipsOp "sdc1" "T,i16(s)" (MIPS_OP 0x3D) (flags [MA_MIPS2]) (flags [MO_DFPU]);
  mkMipsOp "sdc1" "T,(s)" (MIPS_OP 0x3D) (flags [MA_MIPS2]) (flags [MO_DFPU]);
  mkMipsOp "s.d" "T,i16(s)" (MIPS_OP 0x3D) (flags [MA_MIPS2]) (flags [MO_DFPU]);
  mkMipsOp "s.d" "T,(s)" (MIPS_OP 0x3D) (flags [MA_MIPS2]) (flags [MO_DFPU]);
  mkMipsOp "usv.q" "vt,i16(s)" (MIPS_OP 0x3D) (flags [MA_PSP]) (flags [MO_VFPU_QUAD; MO_VFPU_MIXED; MO_IMMALIGNED]);
  mkMipsOp "usv.q" "vt,(s)" (MIPS_OP 0x3D) (flags [MA_PSP]) (flags [MO_VFPU_QUAD; MO_VFPU_MIXED]);
  mkMipsOp "svl.q" "vt,i16(s)" (MIPS_OP 0x3D) (flags [MA_PSP]) (flags [MO_VFPU_QUAD; MO_VFPU_MIXED; MO_VFPU_6BIT; MO_IMMALIGNED]);
  mkMipsOp "svl.q" "vt,(s)" (MIPS_OP 0x3D) (flags [MA_PSP]) (flags [MO_VFPU_QUAD; MO_VFPU_MIXED; MO_VFPU_6BIT]);
  mkMipsOp "svr.q" "vt,i16(s)" (Z.lor (MIPS_OP 0x3D) 0x02) (flags [MA_PSP]) (flags [MO_VFPU_QUAD; MO_VFPU_MIXED; MO_VFPU_6BIT; MO_IMMALIGNED]);
  mkMipsOp "svr.q" "vt,(s)" (Z.lor (MIPS_OP 0x3D) 0x02) (flags [MA_PSP]) (flags [MO_VFPU_QUAD; MO_VFPU_MIXED; MO_VFPU_6BIT]);
  mkMipsOp "sv.q" "vt,i16(s),w" (Z.lor (MIPS_OP 0x3E) 0x02) (flags [MA_PSP]) (flags [MO_VFPU_QUAD; MO_VFPU_MIXED; MO_VFPU_6BIT; MO_IMMALIGNED]);
  mkMipsOp "sv.q" "vt,(s),w" (Z.lor (MIPS_OP 0x3E) 0x02) (flags [MA_PSP]) (flags [MO_VFPU_QUAD; MO_VFPU_MIXED; MO_VFPU_6BIT]);
  mkMipsOp "sv.q" "vt,i16(s)" (MIPS_OP 0x3E) (flags [MA_PSP]) (flags [MO_VFPU_QUAD; MO_VFPU_MIXED; MO_VFPU_6BIT; MO_IMMALIGNED]);
  mkMipsOp "sv.q" "vt,(s)" (MIPS_OP 0x3E) (flags [MA_PSP]) (flags [MO_VFPU_QUAD; MO_VFPU_MIXED; MO_VFPU_6BIT]);
  mkMipsOp "sqc2" "Vt,i16(s)" (MIPS_OP 0x3E) (flags [MA_PS2]) (flags [MO_DELAYRT]);
  mkMipsOp "sd" "t,i16(s)" (MIPS_OP 0x3F) (flags [MA_MIPS3]) (flags [MO_64BIT; MO_DELAYRT]);
  mkMipsOp "sd" "t,(s)" (MIPS_OP 0x3F) (flags [MA_MIPS3]) (flags [MO_64BIT; MO_DELAYRT]);
  mkMipsOp "sll" "d,t,i5" (MIPS_SPECIAL 0x00) (flags [MA_MIPS1]) (flags []);
  mkMipsOp "sll" "d,i5" (MIPS_SPECIAL 0x00) (flags [MA_MIPS1]) (flags [MO_RDT]);
  mkMipsOp "nop" "" (MIPS_SPECIAL 0x00) (flags [MA_MIPS1]) (flags []);
  mkMipsOp "srl" "d,t,i5" (MIPS_SPECIAL 0x02) (flags [MA_MIPS1]) (flags []);
  mkMipsOp "srl" "d,i5" (MIPS_SPECIAL 0x02) (flags [MA_MIPS1]) (flags [MO_RDT]);
  mkMipsOp "rotr" "d,t,i5" (Z.lor (MIPS_SPECIAL 0x02) (MIPS_RS 1)) (flags [MA_PSP]) (flags []);
  mkMipsOp "rotr" "d,i5" (Z.lor (MIPS_SPECIAL 0x02) (MIPS_RS 1)) (flags [MA_PSP]) (flags [MO_RDT]);
  mkMipsOp "sra" "d,t,i5" (MIPS_SPECIAL 0x03) (flags [MA_MIPS1]) (flags []);
  mkMipsOp "sra" "d,i5" (MIPS_SPECIAL 0x03) (flags [MA_MIPS1]) (flags [MO_RDT]);
  mkMipsOp "sllv" "d,t,s" (MIPS_SPECIAL 0x04) (flags [MA_MIPS1]) (flags []);
  mkMipsOp "sllv" "d,s" (MIPS_SPECIAL 0x04) (flags [MA_MIPS1]) (flags [MO_RDT]);
  mkMipsOp "srlv" "d,t,s" (MIPS_SPECIAL 0x06) (flags [MA_MIPS1]) (flags []);
  mkMipsOp "srlv" "d,s" (MIPS_SPECIAL 0x06) (flags [MA_MIPS1]) (flags [MO_RDT]);
  mkMipsOp "rotrv" "d,t,s" (Z.lor (MIPS_SPECIAL 0x06) (MIPS_SA 1)) (flags [MA_PSP]) (flags []);
  mkMipsOp "rotrv" "d,s" (Z.lor (MIPS_SPECIAL 0x06) (MIPS_SA 1)) (flags [MA_PSP]) (flags [MO_RDT]);
  mkMipsOp "srav" "d,t,s" (MIPS_SPECIAL 0x07) (flags [MA_MIPS1]) (flags []);
  mkMipsOp "srav" "d,s" (MIPS_SPECIAL 0x07) (flags [MA_MIPS1]) (flags [MO_RDT]);
  mkMipsOp "jr" "s" (MIPS_SPECIAL 0x08) (flags [MA_MIPS1]) (flags [MO_DELAY; MO_NODELAYSLOT]);
  mkMipsOp "jalr" "s,d" (MIPS_SPECIAL 0x09) (flags [MA_MIPS1]) (flags [MO_DELAY; MO_NODELAYSLOT]);
  mkMipsOp "jalr" "s" (Z.lor (MIPS_SPECIAL 0x09) (MIPS_RD 31)) (flags [MA_MIPS1]) (flags [MO_DELAY; MO_NODELAYSLOT]);
  mkMipsOp "movz" "d,s,t" (MIPS_SPECIAL 0x0A) (flags [MA_MIPS4; MA_PS2; MA_PSP]) (flags []);
  mkMipsOp "movn" "d,s,t" (MIPS_SPECIAL 0x0B) (flags [MA_MIPS4; MA_PS2; MA_PSP]) (flags []);
  mkMipsOp "syscall" "i20" (MIPS_SPECIAL 0x0C) (flags [MA_MIPS1; MA_EXRSP]) (flags [MO_NODELAYSLOT]);
  mkMipsOp "syscall" "" (MIPS_SPECIAL 0x0C) (flags [MA_MIPS1; MA_EXRSP]) (flags [MO_NODELAYSLOT]);
  mkMipsOp "break" "i20" (MIPS_SPECIAL 0x0D) (flags [MA_MIPS1]) (flags [MO_NODELAYSLOT]);
  mkMipsOp "break" "" (MIPS_SPECIAL 0x0D) (flags [MA_MIPS1]) (flags [MO_NODELAYSLOT]);
  mkMipsOp "sync" "" (MIPS_SPECIAL 0x0F) (flags [MA_MIPS2]) (flags []);
  mkMipsOp "mfhi" "d" (MIPS_SPECIAL 0x10) (flags [MA_MIPS1; MA_EXRSP]) (flags []);
  mkMipsOp "mthi" "s" (MIPS_SPECIAL 0x11) (flags [MA_MIPS1; MA_EXRSP]) (flags []);
  mkMipsOp "mflo" "d" (MIPS_SPECIAL 0x12) (flags [MA_MIPS1; MA_EXRSP]) (flags []);
  mkMipsOp "mtlo" "s" (MIPS_SPECIAL 0x13) (flags [MA_MIPS1; MA_EXRSP]) (flags []);
  mkMipsOp "dsllv" "d,t,s" (MIPS_SPECIAL 0x14) (flags [MA_MIPS3]) (flags [MO_64BIT]);
  mkMipsOp "dsllv" "d,s" (MIPS_SPECIAL 0x14) (flags [MA_MIPS3]) (flags [MO_64BIT; MO_RDT]);
  mkMipsOp "dsrlv" "d,t,s" (MIPS_SPECIAL 0x16) (flags [MA_MIPS3]) (flags [MO_64BIT]);
  mkMipsOp "dsrlv" "d,s" (MIPS_SPECIAL 0x16) (flags [MA_MIPS3]) (flags [MO_64BIT; MO_RDT]);
  mkMipsOp "clz" "d,s" (MIPS_SPECIAL 0x16) (flags [MA_PSP]) (flags []);
  mkMipsOp "dsrav" "d,t,s" (MIPS_SPECIAL 0x17) (flags [MA_MIPS3]) (flags [MO_64BIT]);
  mkMipsOp "dsrav" "d,s" (MIPS_SPECIAL 0x17) (flags [MA_MIPS3]) (flags [MO_64BIT; MO_RDT]);
  mkMipsOp "clo" "d,s" (MIPS_SPECIAL 0x17) (flags [MA_PSP]) (flags []);
  mkMipsOp "mult" "d,s,t" (MIPS_SPECIAL 0x18) (flags [MA_PS2]) (flags []);
  mkMipsOp "multu" "d,s,t" (MIPS_SPECIAL 0x19) (flags [MA_PS2]) (flags []);
  mkMipsOp "mult" "s,t" (MIPS_SPECIAL 0x18) (flags [MA_MIPS1; MA_EXRSP]) (flags []);
  mkMipsOp "mult" ("r" ++ chr 0 ++ ",s,t") (MIPS_SPECIAL 0x18) (flags [MA_MIPS1; MA_EXRSP]) (flags []);
  mkMipsOp "multu" "s,t" (MIPS_SPECIAL 0x19) (flags [MA_MIPS1; MA_EXRSP]) (flags []);
  mkMipsOp "multu" ("r" ++ chr 0 ++ ",s,t") (MIPS_SPECIAL 0x19) (flags [MA_MIPS1; MA_EXRSP]) (flags []);
  mkMipsOp "div" "s,t" (MIPS_SPECIAL 0x1A) (flags [MA_MIPS1; MA_EXRSP]) (flags []);
  mkMipsOp "div" ("r" ++ chr 0 ++ ",s,t") (MIPS_SPECIAL 0x1A) (flags [MA_MIPS1; MA_EXRSP]) (flags []);
  mkMipsOp "divu" "s,t" (MIPS_SPECIAL 0x1B) (flags [MA_MIPS1; MA_EXRSP]) (flags []);
  mkMipsOp "divu" ("r" ++ chr 0 ++ ",s,t") (MIPS_SPECIAL 0x1B) (flags [MA_MIPS1; MA_EXRSP]) (flags []);
  mkMipsOp "dmult" "s,t" (MIPS_SPECIAL 0x1C) (flags [MA_MIPS3; MA_EXPS2]) (flags [MO_64BIT]);
  mkMipsOp "dmult" ("r" ++ chr 0 ++ ",s,t") (MIPS_SPECIAL 0x1C) (flags [MA_MIPS3; MA_EXPS2]) (flags [MO_64BIT]);
  mkMipsOp "madd" "s,t" (MIPS_SPECIAL 0x1C) (flags [MA_PSP]) (flags []);
  mkMipsOp "dmultu" "s,t" (MIPS_SPECIAL 0x1D) (flags [MA_MIPS3; MA_EXPS2]) (flags [MO_64BIT]);
  mkMipsOp "dmultu" ("r" ++ chr 0 ++ ",s,t") (MIPS_SPECIAL 0x1D) (flags [MA_MIPS3; MA_EXPS2]) (flags [MO_64BIT]);
  mkMipsOp "maddu" "s,t" (MIPS_SPECIAL 0x1D) (flags [MA_PSP]) (flags []);
  mkMipsOp "ddiv" "s,t" (MIPS_SPECIAL 0x1E) (flags [MA_MIPS3; MA_EXPS2]) (flags [MO_64BIT]);
  mkMipsOp "ddiv" ("r" ++ chr 0 ++ ",s,t") (MIPS_SPECIAL 0x1E) (flags [MA_MIPS3; MA_EXPS2]) (flags [MO_64BIT]);
  mkMipsOp "ddivu" "s,t" (MIPS_SPECIAL 0x1F) (flags [MA_MIPS3; MA_EXPS2]) (flags [MO_64BIT]);
  mkMipsOp "ddivu" ("r" ++ chr 0 ++ ",s,t") (MIPS_SPECIAL 0x1F) (flags [MA_MIPS3; MA_EXPS2]) (flags [MO_64BIT]);
  mkMipsOp "add" "d,s,t" (MIPS_SPECIAL 0x20) (flags [MA_MIPS1]) (flags []);
  mkMipsOp "add" "s,t" (MIPS_SPECIAL 0x20) (flags [MA_MIPS1]) (flags [MO_RSD]);
  mkMipsOp "addu" "d,s,t" (MIPS_SPECIAL 0x21) (flags [MA_MIPS1]) (flags []);
  mkMipsOp "addu" "s,t" (MIPS_SPECIAL 0x21) (flags [MA_MIPS1]) (flags [MO_RSD]);
  mkMipsOp "move" "d,s" (MIPS_SPECIAL 0x21) (flags [MA_MIPS1]) (flags []);
  mkMipsOp "clear" "d" (MIPS_SPECIAL 0x21) (flags [MA_MIPS1]) (flags []);
  mkMipsOp "sub" "d,s,t" (MIPS_SPECIAL 0x22) (flags [MA_MIPS1]) (flags []);
  mkMipsOp "sub" "s,t" (MIPS_SPECIAL 0x22) (flags [MA_MIPS1]) (flags [MO_RSD]);
  mkMipsOp "neg" "d,t" (MIPS_SPECIAL 0x22) (flags [MA_MIPS1]) (flags []);
  mkMipsOp "subu" "d,s,t" (MIPS_SPECIAL 0x23) (flags [MA_MIPS1]) (flags []);
  mkMipsOp "subu" "s,t" (MIPS_SPECIAL 0x23) (flags [MA_MIPS1]) (flags [MO_RSD]);
  mkMipsOp "negu" "d,t" (MIPS_SPECIAL 0x23) (flags [MA_MIPS1]) (flags []);
  mkMipsOp "and" "d,s,t" (MIPS_SPECIAL 0x24) (flags [MA_MIPS1]) (flags []);
  mkMipsOp "and" "s,t" (MIPS_SPECIAL 0x24) (flags [MA_MIPS1]) (flags [MO_RSD]);
  mkMipsOp "or" "d,s,t" (MIPS_SPECIAL 0x25) (flags [MA_MIPS1]) (flags []);
  mkMipsOp "or" "s,t" (MIPS_SPECIAL 0x25) (flags [MA_MIPS1]) (flags [MO_RSD]);
  mkMipsOp "xor" "d,s,t" (MIPS_SPECIAL 0x26) (flags [MA_MIPS1]) (flags []);
  mkMipsOp "eor" "d,s,t" (MIPS_SPECIAL 0x26) (flags [MA_MIPS1]) (flags []);
  mkMipsOp "xor" "s,t" (MIPS_SPECIAL 0x26) (flags [MA_MIPS1]) (flags [MO_RSD]);
  mkMipsOp "eor" "s,t" (MIPS_SPECIAL 0x26) (flags [MA_MIPS1]) (flags [MO_RSD]);
  mkMipsOp "nor" "d,s,t" (MIPS_SPECIAL 0x27) (flags [MA_MIPS1]) (flags []);
  mkMipsOp "nor" "s,t" (MIPS_SPECIAL 0x27) (flags [MA_MIPS1]) (flags [MO_RSD]);
  mkMipsOp "not" "d,s" (MIPS_SPECIAL 0x27) (flags [MA_MIPS1]) (flags []);
  mkMipsOp "mfsa" "d" (MIPS_SPECIAL 0x28) (flags [MA_PS2]) (flags []);
  mkMipsOp "mtsa" "s" (MIPS_SPECIAL 0x29) (flags [MA_PS2]) (flags []);
  mkMipsOp "slt" "d,s,t" (MIPS_SPECIAL 0x2A) (flags [MA_MIPS1]) (flags []);
  mkMipsOp "slt" "s,t" (MIPS_SPECIAL 0x2A) (flags [MA_MIPS1]) (flags [MO_RSD]);
  mkMipsOp "sgt" "d,t,s" (MIPS_SPECIAL 0x2A) (flags [MA_MIPS1]) (flags []);
  mkMipsOp "sgt" "d,s" (MIPS_SPECIAL 0x2A) (flags [MA_MIPS1]) (flags [MO_RDT]);
  mkMipsOp "sltu" "d,s,t" (MIPS_SPECIAL 0x2B) (flags [MA_MIPS1]) (flags []);
  mkMipsOp "sltu" "s,t" (MIPS_SPECIAL 0x2B) (flags [MA_MIPS1]) (flags [MO_RSD]);
  mkMipsOp "sgtu" "d,t,s" (MIPS_SPECIAL 0x2B) (flags [MA_MIPS1]) (flags []);
  mkMipsOp "sgtu" "d,s" (MIPS_SPECIAL 0x2B) (flags [MA_MIPS1]) (flags [MO_RDT]);
  mkMipsOp "dadd" "d,s,t" (MIPS_SPECIAL 0x2C) (flags [MA_MIPS3]) (flags [MO_64BIT]);
  mkMipsOp "dadd" "s,t" (MIPS_SPECIAL 0x2C) (flags [MA_MIPS3]) (flags [MO_64BIT; MO_RSD]);
  mkMipsOp "max" "d,s,t" (MIPS_SPECIAL 0x2C) (flags [MA_PSP]) (flags []);
  mkMipsOp "daddu" "d,s,t" (MIPS_SPECIAL 0x2D) (flags [MA_MIPS3]) (flags [MO_64BIT]);
  mkMipsOp "daddu" "s,t" (MIPS_SPECIAL 0x2D) (flags [MA_MIPS3]) (flags [MO_64BIT; MO_RSD]);
  mkMipsOp "dmove" "d,s" (MIPS_SPECIAL 0x2D) (flags [MA_MIPS3]) (flags [MO_64BIT]);
  mkMipsOp "min" "d,s,t" (MIPS_SPECIAL 0x2D) (flags [MA_PSP]) (flags []);
  mkMipsOp "dsub" "d,s,t" (MIPS_SPECIAL 0x2E) (flags [MA_MIPS3]) (flags [MO_64BIT]);
  mkMipsOp "dsub" "s,t" (MIPS_SPECIAL 0x2E) (flags [MA_MIPS3]) (flags [MO_64BIT; MO_RSD]);
  mkMipsOp "dneg" "d,t" (MIPS_SPECIAL 0x2E) (flags [MA_MIPS3]) (flags [MO_64BIT]);
  mkMipsOp "msub" "s,t" (MIPS_SPECIAL 0x2E) (flags [MA_PSP]) (flags []);
  mkMipsOp "dsubu" "d,s,t" (MIPS_SPECIAL 0x2F) (flags [MA_MIPS3]) (flags [MO_64BIT]);
  mkMipsOp "dsubu" "s,t" (MIPS_SPECIAL 0x2F) (flags [MA_MIPS3]) (flags [MO_64BIT; MO_RSD]);
  mkMipsOp "dnegu" "d,t" (MIPS_SPECIAL 0x2F) (flags [MA_MIPS3]) (flags [MO_64BIT]);
  mkMipsOp "msubu" "s,t" (MIPS_SPECIAL 0x2F) (flags [MA_PSP]) (flags []);
  mkMipsOp "tge" "s,t,i10" (MIPS_SPECIAL 0x30) (flags [MA_MIPS2]) (flags []);
  mkMipsOp "tge" "s,t" (MIPS_SPECIAL 0x30) (flags [MA_MIPS2]) (flags []);
  mkMipsOp "tgeu" "s,t,i10" (MIPS_SPECIAL 0x31) (flags [MA_MIPS2]) (flags []);
  mkMipsOp "tgeu" "s,t" (MIPS_SPECIAL 0x31) (flags [MA_MIPS2]) (flags []);
  mkMipsOp "tlt" "s,t,i10" (MIPS_SPECIAL 0x32) (flags [MA_MIPS2]) (flags []);
  mkMipsOp "tlt" "s,t" (MIPS_SPECIAL 0x32) (flags [MA_MIPS2]) (flags []);
  mkMipsOp "tltu" "s,t,i10" (MIPS_SPECIAL 0x33) (flags [MA_MIPS2]) (flags []);
  mkMipsOp "tltu" "s,t" (MIPS_SPECIAL 0x33) (flags [MA_MIPS2]) (flags []);
  mkMipsOp "teq" "s,t,i10" (MIPS_SPECIAL 0x34) (flags [MA_MIPS2]) (flags []);
  mkMipsOp "teq" "s,t" (MIPS_SPECIAL 0x34) (flags [MA_MIPS2]) (flags []);
  mkMipsOp "tne" "s,t,i10" (MIPS_SPECIAL 0x36) (flags [MA_MIPS2]) (flags []);
  mkMipsOp "tne" "s,t" (MIPS_SPECIAL 0x36) (flags [MA_MIPS2]) (flags []);
  mkMipsOp "dsll" "d,t,i5" (MIPS_SPECIAL 0x38) (flags [MA_MIPS3]) (flags [MO_64BIT]);
  mkMipsOp "dsll" "d,i5" (MIPS_SPECIAL 0x38) (flags [MA_MIPS3]) (flags [MO_64BIT; MO_RDT]);
  mkMipsOp "dsrl" "d,t,i5" (MIPS_SPECIAL 0x3A) (flags [MA_MIPS3]) (flags [MO_64BIT]);
  mkMipsOp "dsrl" "d,i5" (MIPS_SPECIAL 0x3A) (flags [MA_MIPS3]) (flags [MO_64BIT; MO_RDT]);
  mkMipsOp "dsra" "d,t,i5" (MIPS_SPECIAL 0x3B) (flags [MA_MIPS3]) (flags [MO_64BIT]);
  mkMipsOp "dsra" "d,i5" (MIPS_SPECIAL 0x3B) (flags [MA_MIPS3]) (flags [MO_64BIT; MO_RDT]);
  mkMipsOp "dsll32" "d,t,i5" (MIPS_SPECIAL 0x3C) (flags [MA_MIPS3]) (flags [MO_64BIT]);
  mkMipsOp "dsll32" "d,i5" (MIPS_SPECIAL 0x3C) (flags [MA_MIPS3]) (flags [MO_64BIT; MO_RDT]);
  mkMipsOp "dsrl32" "d,t,i5" (MIPS_SPECIAL 0x3E) (flags [MA_MIPS3]) (flags [MO_64BIT]);
  mkMipsOp "dsrl32" "d,i5" (MIPS_SPECIAL 0x3E) (flags [MA_MIPS3]) (flags [MO_64BIT; MO_RDT]);
  mkMipsOp "dsra32" "d,t,i5" (MIPS_SPECIAL 0x3F) (flags [MA_MIPS3]) (flags [MO_64BIT]);
  mkMipsOp "dsra32" "d,i5" (MIPS_SPECIAL 0x3F) (flags [MA_MIPS3]) (flags [MO_64BIT; MO_RDT]);
  mkMipsOp "bltz" "s,i16" (MIPS_REGIMM 0x00) (flags [MA_MIPS1]) (flags [MO_IPCR; MO_DELAY; MO_NODELAYSLOT]);
  mkMipsOp "bgez" "s,i16" (MIPS_REGIMM 0x01) (flags [MA_MIPS1]) (flags [MO_IPCR; MO_DELAY; MO_NODELAYSLOT]);
  mkMipsOp "bltzl" "s,i16" (MIPS_REGIMM 0x02) (flags [MA_MIPS2]) (flags [MO_IPCR; MO_DELAY; MO_NODELAYSLOT]);
  mkMipsOp "bgezl" "s,i16" (MIPS_REGIMM 0x03) (flags [MA_MIPS2]) (flags [MO_IPCR; MO_DELAY; MO_NODELAYSLOT]);
  mkMipsOp "tgei" "s,i16" (MIPS_REGIMM 0x08) (flags [MA_MIPS2]) (flags []);
  mkMipsOp "tgeiu" "s,i16" (MIPS_REGIMM 0x09) (flags [MA_MIPS2]) (flags []);
  mkMipsOp "tlti" "s,i16" (MIPS_REGIMM 0x0A) (flags [MA_MIPS2]) (flags []);
  mkMipsOp "tltiu" "s,i16" (MIPS_REGIMM 0x0B) (flags [MA_MIPS2]) (flags []);
  mkMipsOp "teqi" "s,i16" (MIPS_REGIMM 0x0C) (flags [MA_MIPS2]) (flags []);
  mkMipsOp "tnei" "s,i16" (MIPS_REGIMM 0x0E) (flags [MA_MIPS2]) (flags []);
  mkMipsOp "bltzal" "s,i16" (MIPS_REGIMM 0x10) (flags [MA_MIPS1]) (flags [MO_IPCR; MO_DELAY; MO_NODELAYSLOT]);
  mkMipsOp "bgezal" "s,i16" (MIPS_REGIMM 0x11) (flags [MA_MIPS1]) (flags [MO_IPCR; MO_DELAY; MO_NODELAYSLOT]);
  mkMipsOp "bal" "i16" (MIPS_REGIMM 0x11) (flags [MA_MIPS1]) (flags [MO_IPCR; MO_DELAY; MO_NODELAYSLOT]);
  mkMipsOp "bltzall" "s,i16" (MIPS_REGIMM 0x12) (flags [MA_MIPS2]) (flags [MO_IPCR; MO_DELAY; MO_NODELAYSLOT]);
  mkMipsOp "bgezall" "s,i16" (MIPS_REGIMM 0x13) (flags [MA_MIPS2]) (flags [MO_IPCR; MO_DELAY; MO_NODELAYSLOT]);
  mkMipsOp "mtsab" "s,i16" (MIPS_REGIMM 0x18) (flags [MA_PS2]) (flags []);
  mkMipsOp "mtsah" "s,i16" (MIPS_REGIMM 0x19) (flags [MA_PS2]) (flags []);
  mkMipsOp "mfc0" "t,z" (MIPS_COP0 0x00) (flags [MA_MIPS1; MA_EXRSP]) (flags []);
  mkMipsOp "mfc0" "t,Rz" (MIPS_COP0 0x00) (flags [MA_RSP]) (flags []);
  mkMipsOp "dmfc0" "t,z" (MIPS_COP0 0x01) (flags [MA_MIPS3]) (flags [MO_64BIT]);
  mkMipsOp "mtc0" "t,z" (MIPS_COP0 0x04) (flags [MA_MIPS1; MA_EXRSP]) (flags []);
  mkMipsOp "mtc0" "t,Rz" (MIPS_COP0 0x04) (flags [MA_RSP]) (flags []);
  mkMipsOp "dmtc0" "t,z" (MIPS_COP0 0x05) (flags [MA_MIPS3]) (flags [MO_64BIT]);
  mkMipsOp "tlbr" "" (MIPS_COP0FUNCT 0x01) (flags [MA_MIPS1; MA_EXRSP]) (flags []);
  mkMipsOp "tlbwi" "" (MIPS_COP0FUNCT 0x02) (flags [MA_MIPS1; MA_EXRSP]) (flags []);
  mkMipsOp "tlbwr" "" (MIPS_COP0FUNCT 0x06) (flags [MA_MIPS1; MA_EXRSP]) (flags []);
  mkMipsOp "tlbp" "" (MIPS_COP0FUNCT 0x08) (flags [MA_MIPS1; MA_EXRSP]) (flags []);
  mkMipsOp "rfe" "" (MIPS_COP0FUNCT 0x10) (flags [MA_PSX]) (flags []);
  mkMipsOp "eret" "" (MIPS_COP0FUNCT 0x18) (flags [MA_MIPS3]) (flags []);
  mkMipsOp "mfc1" "t,S" (MIPS_COP1 0x00) (flags [MA_MIPS1]) (flags [MO_FPU]);
  mkMipsOp "dmfc1" "t,S" (MIPS_COP1 0x01) (flags [MA_MIPS3]) (flags [MO_DFPU; MO_64BIT]);
  mkMipsOp "cfc1" "t,f" (MIPS_COP1 0x02) (flags [MA_MIPS1]) (flags [MO_FPU]);
  mkMipsOp "mtc1" "t,S" (MIPS_COP1 0x04) (flags [MA_MIPS1]) (flags [MO_FPU]);
  mkMipsOp "dmtc1" "t,S" (MIPS_COP1 0x05) (flags [MA_MIPS3]) (flags [MO_DFPU; MO_64BIT]);
  mkMipsOp "ctc1" "t,f" (MIPS_COP1 0x06) (flags [MA_MIPS1]) (flags [MO_FPU]);
  mkMipsOp "bc1f" "i16" (MIPS_COP1BC 0x00) (flags [MA_MIPS1]) (flags [MO_FPU; MO_IPCR; MO_DELAY; MO_NODELAYSLOT]);
  mkMipsOp "bc1t" "i16" (MIPS_COP1BC 0x01) (flags [MA_MIPS1]) (flags [MO_FPU; MO_IPCR; MO_DELAY; MO_NODELAYSLOT]);
  mkMipsOp "bc1fl" "i16" (MIPS_COP1BC 0x02) (flags [MA_MIPS2]) (flags [MO_FPU; MO_IPCR; MO_DELAY; MO_NODELAYSLOT]);
  mkMipsOp "bc1tl" "i16" (MIPS_COP1BC 0x03) (flags [MA_MIPS2]) (flags [MO_FPU; MO_IPCR; MO_DELAY; MO_NODELAYSLOT]);
  mkMipsOp "add.s" "D,S,T" (MIPS_COP1S 0x00) (flags [MA_MIPS1]) (flags [MO_FPU]);
  mkMipsOp "add.s" "S,T" (MIPS_COP1S 0x00) (flags [MA_MIPS1]) (flags [MO_FPU; MO_FRSD]);
  mkMipsOp "sub.s" "D,S,T" (MIPS_COP1S 0x01) (flags [MA_MIPS1]) (flags [MO_FPU]);
  mkMipsOp "sub.s" "S,T" (MIPS_COP1S 0x01) (flags [MA_MIPS1]) (flags [MO_FPU; MO_FRSD]);
  mkMipsOp "mul.s" "D,S,T" (MIPS_COP1S 0x02) (flags [MA_MIPS1]) (flags [MO_FPU]);
  mkMipsOp "mul.s" "S,T" (MIPS_COP1S 0x02) (flags [MA_MIPS1]) (flags [MO_FPU; MO_FRSD]);
  mkMipsOp "div.s" "D,S,T" (MIPS_COP1S 0x03) (flags [MA_MIPS1]) (flags [MO_FPU]);
  mkMipsOp "div.s" "S,T" (MIPS_COP1S 0x03) (flags [MA_MIPS1]) (flags [MO_FPU; MO_FRSD]);
  mkMipsOp "sqrt.s" "D,S" (MIPS_COP1S 0x04) (flags [MA_MIPS2]) (flags [MO_FPU]);
  mkMipsOp "abs.s" "D,S" (MIPS_COP1S 0x05) (flags [MA_MIPS1]) (flags [MO_FPU]);
  mkMipsOp "mov.s" "D,S" (MIPS_COP1S 0x06) (flags [MA_MIPS1]) (flags [MO_FPU]);
  mkMipsOp "neg.s" "D,S" (MIPS_COP1S 0x07) (flags [MA_MIPS1]) (flags [MO_FPU]);
  mkMipsOp "round.l.s" "D,S" (MIPS_COP1S 0x08) (flags [MA_MIPS3]) (flags [MO_DFPU]);
  mkMipsOp "trunc.l.s" "D,S" (MIPS_COP1S 0x09) (flags [MA_MIPS3]) (flags [MO_DFPU]);
  mkMipsOp "ceil.l.s" "D,S" (MIPS_COP1S 0x0A) (flags [MA_MIPS3]) (flags [MO_DFPU]);
  mkMipsOp "floor.l.s" "D,S" (MIPS_COP1S 0x0B) (flags [MA_MIPS3]) (flags [MO_DFPU]);
  mkMipsOp "round.w.s" "D,S" (MIPS_COP1S 0x0C) (flags [MA_MIPS2; MA_EXPS2]) (flags [MO_FPU]);
  mkMipsOp "trunc.w.s" "D,S" (MIPS_COP1S 0x0D) (flags [MA_MIPS1; MA_EXPS2]) (flags [MO_FPU]);
  mkMipsOp "ceil.w.s" "D,S" (MIPS_COP1S 0x0E) (flags [MA_MIPS2; MA_EXPS2]) (flags [MO_FPU]);
  mkMipsOp "floor.w.s" "D,S" (MIPS_COP1S 0x0F) (flags [MA_MIPS2; MA_EXPS2]) (flags [MO_FPU]);
  mkMipsOp "rsqrt.w.s" "D,S" (MIPS_COP1S 0x16) (flags [MA_PS2]) (flags []);
  mkMipsOp "adda.s" "S,T" (MIPS_COP1S 0x18) (flags [MA_PS2]) (flags []);
  mkMipsOp "suba.s" "S,T" (MIPS_COP1S 0x19) (flags [MA_PS2]) (flags []);
  mkMipsOp "mula.s" "S,T" (MIPS_COP1S 0x1A) (flags [MA_PS2]) (flags []);
  mkMipsOp "madd.s" "D,S,T" (MIPS_COP1S 0x1C) (flags [MA_PS2]) (flags []);
  mkMipsOp "madd.s" "S,T" (MIPS_COP1S 0x1C) (flags [MA_PS2]) (flags [MO_FRSD]);
  mkMipsOp "msub.s" "D,S,T" (MIPS_COP1S 0x1D) (flags [MA_PS2]) (flags []);
  mkMipsOp "msub.s" "S,T" (MIPS_COP1S 0x1D) (flags [MA_PS2]) (flags [MO_FRSD]);
  mkMipsOp "madda.s" "S,T" (MIPS_COP1S 0x1E) (flags [MA_PS2]) (flags []);
  mkMipsOp "msuba.s" "S,T" (MIPS_COP1S 0x1F) (flags [MA_PS2]) (flags []);
  mkMipsOp "cvt.d.s" "D,S" (MIPS_COP1S 0x21) (flags [MA_MIPS1]) (flags [MO_DFPU]);
  mkMipsOp "cvt.w.s" "D,S" (MIPS_COP1S 0x24) (flags [MA_MIPS1]) (flags [MO_FPU]);
  mkMipsOp "cvt.l.s" "D,S" (MIPS_COP1S 0x25) (flags [MA_MIPS3]) (flags [MO_DFPU]);
  mkMipsOp "max.s" "D,S,T" (MIPS_COP1S 0x28) (flags [MA_PS2]) (flags []);
  mkMipsOp "min.s" "D,S,T" (MIPS_COP1S 0x29) (flags [MA_PS2]) (flags []);
  mkMipsOp "c.f.s" "S,T" (MIPS_COP1S 0x30) (flags [MA_MIPS1]) (flags [MO_FPU]);
  mkMipsOp "c.un.s" "S,T" (MIPS_COP1S 0x31) (flags [MA_MIPS1; MA_EXPS2]) (flags [MO_FPU]);
  mkMipsOp "c.eq.s" "S,T" (MIPS_COP1S 0x32) (flags [MA_MIPS1]) (flags [MO_FPU]);
  mkMipsOp "c.ueq.s" "S,T" (MIPS_COP1S 0x33) (flags [MA_MIPS1; MA_EXPS2]) (flags [MO_FPU]);
  mkMipsOp "c.olt.s" "S,T" (MIPS_COP1S 0x34) (flags [MA_MIPS1; MA_EXPS2]) (flags [MO_FPU]);
  mkMipsOp "c.lt.s" "S,T" (MIPS_COP1S 0x34) (flags [MA_PS2]) (flags []);
  mkMipsOp "c.ult.s" "S,T" (MIPS_COP1S 0x35) (flags [MA_MIPS1; MA_EXPS2]) (flags [MO_FPU]);
  mkMipsOp "c.ole.s" "S,T" (MIPS_COP1S 0x36) (flags [MA_MIPS1; MA_EXPS2]) (flags [MO_FPU]);
  mkMipsOp "c.le.s" "S,T" (MIPS_COP1S 0x36) (flags [MA_PS2]) (flags []);
  mkMipsOp "c.ule.s" "S,T" (MIPS_COP1S 0x37) (flags [MA_MIPS1; MA_EXPS2]) (flags [MO_FPU]);
  mkMipsOp "c.sf.s" "S,T" (MIPS_COP1S 0x38) (flags [MA_MIPS1; MA_EXPS2]) (flags [MO_FPU]);
  mkMipsOp "c.ngle.s" "S,T" (MIPS_COP1S 0x39) (flags [MA_MIPS1; MA_EXPS2]) (flags [MO_FPU]);
  mkMipsOp "c.seq.s" "S,T" (MIPS_COP1S 0x3A) (flags [MA_MIPS1; MA_EXPS2]) (flags [MO_FPU]);
  mkMipsOp "c.ngl.s" "S,T" (MIPS_COP1S 0x3B) (flags [MA_MIPS1; MA_EXPS2]) (flags [MO_FPU]);
  mkMipsOp "c.lt.s" "S,T" (MIPS_COP1S 0x3C) (flags [MA_MIPS1; MA_EXPS2]) (flags [MO_FPU]);
  mkMipsOp "c.nge.s" "S,T" (MIPS_COP1S 0x3D) (flags [MA_MIPS1; MA_EXPS2]) (flags [MO_FPU]);
  mkMipsOp "c.le.s" "S,T" (MIPS_COP1S 0x3E) (flags [MA_MIPS1; MA_EXPS2]) (flags [MO_FPU]);
  mkMipsOp "c.ngt.s" "S,T" (MIPS_COP1S 0x3F) (flags [MA_MIPS1; MA_EXPS2]) (flags [MO_FPU]);
  mkMipsOp "add.d" "D,S,T" (MIPS_COP1D 0x00) (flags [MA_MIPS1]) (flags [MO_DFPU]);
  mkMipsOp "add.d" "S,T" (MIPS_COP1D 0x00) (flags [MA_MIPS1]) (flags [MO_DFPU; MO_FRSD]);
  mkMipsOp "sub.d" "D,S,T" (MIPS_COP1D 0x01) (flags [MA_MIPS1]) (flags [MO_DFPU]);
  mkMipsOp "sub.d" "S,T" (MIPS_COP1D 0x01) (flags [MA_MIPS1]) (flags [MO_DFPU; MO_FRSD]);
  mkMipsOp "mul.d" "D,S,T" (MIPS_COP1D 0x02) (flags [MA_MIPS1]) (flags [MO_DFPU]);
  mkMipsOp "mul.d" "S,T" (MIPS_COP1D 0x02) (flags [MA_MIPS1]) (flags [MO_DFPU; MO_FRSD]);
  mkMipsOp "div.d" "D,S,T" (MIPS_COP1D 0x03) (flags [MA_MIPS1]) (flags [MO_DFPU]);
  mkMipsOp "div.d" "S,T" (MIPS_COP1D 0x03) (flags [MA_MIPS1]) (flags [MO_DFPU; MO_FRSD]);
  mkMipsOp "sqrt.d" "D,S" (MIPS_COP1D 0x04) (flags [MA_MIPS2]) (flags [MO_DFPU]);
  mkMipsOp "abs.d" "D,S" (MIPS_COP1D 0x05) (flags [MA_MIPS1]) (flags [MO_DFPU]);
  mkMipsOp "mov.d" "D,S" (MIPS_COP1D 0x06) (flags [MA_MIPS1]) (flags [MO_DFPU]);
  mkMipsOp "neg.d" "D,S" (MIPS_COP1D 0x07) (flags [MA_MIPS1]) (flags [MO_DFPU]);
  mkMipsOp "round.l.d" "D,S" (MIPS_COP1D 0x08) (flags [MA_MIPS3]) (flags [MO_DFPU]);
  mkMipsOp "trunc.l.d" "D,S" (MIPS_COP1D 0x09) (flags [MA_MIPS3]) (flags [MO_DFPU]);
  mkMipsOp "ceil.l.d" "D,S" (MIPS_COP1D 0x0A) (flags [MA_MIPS3]) (flags [MO_DFPU]);
  mkMipsOp "floor.l.d" "D,S" (MIPS_COP1D 0x0B) (flags [MA_MIPS3]) (flags [MO_DFPU]);
  mkMipsOp "round.w.d" "D,S" (MIPS_COP1D 0x0C) (flags [MA_MIPS2]) (flags [MO_DFPU]);
  mkMipsOp "trunc.w.d" "D,S" (MIPS_COP1D 0x0D) (flags [MA_MIPS1]) (flags [MO_DFPU]);
  mkMipsOp "ceil.w.d" "D,S" (MIPS_COP1D 0x0E) (flags [MA_MIPS2]) (flags [MO_DFPU]);
  mkMipsOp "floor.w.d" "D,S" (MIPS_COP1D 0x0F) (flags [MA_MIPS2]) (flags [MO_DFPU]);
  mkMipsOp "cvt.s.d" "D,S" (MIPS_COP1D 0x20) (flags [MA_MIPS1]) (flags [MO_DFPU]);
  mkMipsOp "cvt.w.d" "D,S" (MIPS_COP1D 0x24) (flags [MA_MIPS1]) (flags [MO_DFPU]);
  mkMipsOp "cvt.l.d" "D,S" (MIPS_COP1D 0x25) (flags [MA_MIPS3]) (flags [MO_DFPU]);
  mkMipsOp "c.f.d" "S,T" (MIPS_COP1D 0x30) (flags [MA_MIPS1]) (flags [MO_DFPU]);
  mkMipsOp "c.un.d" "S,T" (MIPS_COP1D 0x31) (flags [MA_MIPS1]) (flags [MO_DFPU]);
  mkMipsOp "c.eq.d" "S,T" (MIPS_COP1D 0x32) (flags [MA_MIPS1]) (flags [MO_DFPU]);
  mkMipsOp "c.ueq.d" "S,T" (MIPS_COP1D 0x33) (flags [MA_MIPS1]) (flags [MO_DFPU]);
  mkMipsOp "c.olt.d" "S,T" (MIPS_COP1D 0x34) (flags [MA_MIPS1]) (flags [MO_DFPU]);
  mkMipsOp "c.ult.d" "S,T" (MIPS_COP1D 0x35) (flags [MA_MIPS1]) (flags [MO_DFPU]);
  mkMipsOp "c.ole.d" "S,T" (MIPS_COP1D 0x36) (flags [MA_MIPS1]) (flags [MO_DFPU]);
  mkMipsOp "c.ule.d" "S,T" (MIPS_COP1D 0x37) (flags [MA_MIPS1]) (flags [MO_DFPU]);
  mkMipsOp "c.sf.d" "S,T" (MIPS_COP1D 0x38) (flags [MA_MIPS1]) (flags [MO_DFPU]);
  mkMipsOp "c.ngle.d" "S,T" (MIPS_COP1D 0x39) (flags [MA_MIPS1]) (flags [MO_DFPU]);
  mkMipsOp "c.seq.d" "S,T" (MIPS_COP1D 0x3A) (flags [MA_MIPS1]) (flags [MO_DFPU]);
  mkMipsOp "c.ngl.d" "S,T" (MIPS_COP1D 0x3B) (flags [MA_MIPS1]) (flags [MO_DFPU]);
  mkMipsOp "c.lt.d" "S,T" (MIPS_COP1D 0x3C) (flags [MA_MIPS1]) (flags [MO_DFPU]);
  mkMipsOp "c.nge.d" "S,T" (MIPS_COP1D 0x3D) (flags [MA_MIPS1]) (flags [MO_DFPU]);
  mkMipsOp "c.le.d" "S,T" (MIPS_COP1D 0x3E) (flags [MA_MIPS1]) (flags [MO_DFPU]);
  mkMipsOp "c.ngt.d" "S,T" (MIPS_COP1D 0x3F) (flags [MA_MIPS1]) (flags [MO_DFPU]);
  mkMipsOp "cvt.s.w" "D,S" (MIPS_COP1W 0x20) (flags [MA_MIPS1]) (flags [MO_FPU]);
  mkMipsOp "cvt.d.w" "D,S" (MIPS_COP1W 0x21) (flags [MA_MIPS1]) (flags [MO_DFPU]);
  mkMipsOp "cvt.s.l" "D,S" (MIPS_COP1L 0x20) (flags [MA_MIPS3]) (flags [MO_DFPU]);
  mkMipsOp "cvt.d.l" "D,S" (MIPS_COP1L 0x21) (flags [MA_MIPS3]) (flags [MO_DFPU]);
  mkMipsOp "mfc2" "t,gs" (MIPS_COP2 0x00) (flags [MA_PSX]) (flags []);
  mkMipsOp "mfc2" "t,RsRo" (MIPS_COP2 0x00) (flags [MA_RSP]) (flags []);
  mkMipsOp "cfc2" "t,gc" (MIPS_COP2 0x02) (flags [MA_PSX]) (flags []);
  mkMipsOp "cfc2" "t,Rc" (MIPS_COP2 0x02) (flags [MA_RSP]) (flags []);
  mkMipsOp "mtc2" "t,gs" (MIPS_COP2 0x04) (flags [MA_PSX]) (flags []);
  mkMipsOp "mtc2" "t,RsRo" (MIPS_COP2 0x04) (flags [MA_RSP]) (flags []);
  mkMipsOp "ctc2" "t,gc" (MIPS_COP2 0x06) (flags [MA_PSX]) (flags []);
  mkMipsOp "ctc2" "t,Rc" (MIPS_COP2 0x06) (flags [MA_RSP]) (flags []);
  mkMipsOp "mfv" "t,vd" (MIPS_COP2 0x03) (flags [MA_PSP]) (flags [MO_VFPU; MO_VFPU_SINGLE]);
  mkMipsOp "mfvc" "t,vc" (Z.lor (MIPS_COP2 0x03) 0x80) (flags [MA_PSP]) (flags [MO_VFPU]);
  mkMipsOp "mtv" "t,vd" (MIPS_COP2 0x07) (flags [MA_PSP]) (flags [MO_VFPU; MO_VFPU_SINGLE]);
  mkMipsOp "mtvc" "t,vc" (Z.lor (MIPS_COP2 0x07) 0x80) (flags [MA_PSP]) (flags [MO_VFPU]);
  mkMipsOp "bvf" "jb,i16" (MIPS_COP2BC 0x00) (flags [MA_PSP]) (flags [MO_IPCR; MO_DELAY; MO_NODELAYSLOT]);
  mkMipsOp "bvf.B" "i16" (MIPS_COP2BC 0x00) (flags [MA_PSP]) (flags [MO_IPCR; MO_DELAY; MO_NODELAYSLOT]);
  mkMipsOp "bvt" "jb,i16" (MIPS_COP2BC 0x01) (flags [MA_PSP]) (flags [MO_IPCR; MO_DELAY; MO_NODELAYSLOT]);
  mkMipsOp "bvt.B" "i16" (MIPS_COP2BC 0x01) (flags [MA_PSP]) (flags [MO_IPCR; MO_DELAY; MO_NODELAYSLOT]);
  mkMipsOp "bvfl" "jb,i16" (MIPS_COP2BC 0x02) (flags [MA_PSP]) (flags [MO_IPCR; MO_DELAY; MO_NODELAYSLOT]);
  mkMipsOp "bvfl.B" "i16" (MIPS_COP2BC 0x02) (flags [MA_PSP]) (flags [MO_IPCR; MO_DELAY; MO_NODELAYSLOT]);
  mkMipsOp "bvtl" "jb,i16" (MIPS_COP2BC 0x03) (flags [MA_PSP]) (flags [MO_IPCR; MO_DELAY; MO_NODELAYSLOT]);
  mkMipsOp "bvtl.B" "i16" (MIPS_COP2BC 0x03) (flags [MA_PSP]) (flags [MO_IPCR; MO_DELAY; MO_NODELAYSLOT]);
  mkMipsOp "vadd.S" "vd,vs,vt" (MIPS_VFPU0 0x00) (flags [MA_PSP]) (flags [MO_VFPU]);
  mkMipsOp "vsub.S" "vd,vs,vt" (MIPS_VFPU0 0x01) (flags [MA_PSP]) (flags [MO_VFPU]);
  mkMipsOp "vsbn.s" "vd,vs,vt" (MIPS_VFPU0 0x02) (flags [MA_PSP]) (flags [MO_VFPU; MO_VFPU_SINGLE]);
  mkMipsOp "vdiv.S" "vd,vs,vt" (MIPS_VFPU0 0x07) (flags [MA_PSP]) (flags [MO_VFPU]);
  mkMipsOp "vmul.S" "vd,vs,vt" (MIPS_VFPU1 0) (flags [MA_PSP]) (flags [MO_VFPU]);
  mkMipsOp "vdot.p" "vSd,vs,vt" (Z.lor (MIPS_VFPU1 1) (MIPS_VFPUSIZE 1)) (flags [MA_PSP]) (flags [MO_VFPU; MO_VFPU_PAIR]);
  mkMipsOp "vdot.t" "vSd,vs,vt" (Z.lor (MIPS_VFPU1 1) (MIPS_VFPUSIZE 2)) (flags [MA_PSP]) (flags [MO_VFPU; MO_VFPU_TRIPLE]);
  mkMipsOp "vdot.q" "vSd,vs,vt" (Z.lor (MIPS_VFPU1 1) (MIPS_VFPUSIZE 3)) (flags [MA_PSP]) (flags [MO_VFPU; MO_VFPU_QUAD]);
  mkMipsOp "vscl.p" "vd,vs,vSt" (Z.lor (MIPS_VFPU1 2) (MIPS_VFPUSIZE 1)) (flags [MA_PSP]) (flags [MO_VFPU; MO_VFPU_PAIR]);
  mkMipsOp "vscl.t" "vd,vs,vSt" (Z.lor (MIPS_VFPU1 2) (MIPS_VFPUSIZE 2)) (flags [MA_PSP]) (flags [MO_VFPU; MO_VFPU_TRIPLE]);
  mkMipsOp "vscl.q" "vd,vs,vSt" (Z.lor (MIPS_VFPU1 2) (MIPS_VFPUSIZE 3)) (flags [MA_PSP]) (flags [MO_VFPU; MO_VFPU_QUAD]);
  mkMipsOp "vhdp.p" "vSd,vs,vt" (Z.lor (MIPS_VFPU1 4) (MIPS_VFPUSIZE 1)) (flags [MA_PSP]) (flags [MO_VFPU; MO_VFPU_PAIR]);
  mkMipsOp "vhdp.t" "vSd,vs,vt" (Z.lor (MIPS_VFPU1 4) (MIPS_VFPUSIZE 2)) (flags [MA_PSP]) (flags [MO_VFPU; MO_VFPU_TRIPLE]);
  mkMipsOp "vhdp.q" "vSd,vs,vt" (Z.lor (MIPS_VFPU1 4) (MIPS_VFPUSIZE 3)) (flags [MA_PSP]) (flags [MO_VFPU; MO_VFPU_QUAD]);
  mkMipsOp "vcrs.t" "vd,vs,vt" (Z.lor (MIPS_VFPU1 5) (MIPS_VFPUSIZE 2)) (flags [MA_PSP]) (flags [MO_VFPU; MO_VFPU_TRIPLE]);
  mkMipsOp "vdet.p" "vSd,vs,vt" (Z.lor (MIPS_VFPU1 6) (MIPS_VFPUSIZE 1)) (flags [MA_PSP]) (flags [MO_VFPU; MO_VFPU_PAIR]);
  mkMipsOp "vcmp.S" "C,vs,vt" (MIPS_VFPU3 0) (flags [MA_PSP]) (flags [MO_VFPU]);
  mkMipsOp "vmin.S" "vd,vs,vt" (MIPS_VFPU3 2) (flags [MA_PSP]) (flags [MO_VFPU]);
  mkMipsOp "vmax.S" "vd,vs,vt" (MIPS_VFPU3 3) (flags [MA_PSP]) (flags [MO_VFPU]);
  mkMipsOp "vscmp.S" "vd,vs,vt" (MIPS_VFPU3 5) (flags [MA_PSP]) (flags [MO_VFPU]);
  mkMipsOp "vsge.S" "vd,vs,vt" (MIPS_VFPU3 6) (flags [MA_PSP]) (flags [MO_VFPU]);
  mkMipsOp "vslt.S" "vd,vs,vt" (MIPS_VFPU3 7) (flags [MA_PSP]) (flags [MO_VFPU]);
  mkMipsOp "ext" "t,s,i5,je" (MIPS_SPECIAL3 0) (flags [MA_PSP]) (flags []);
  mkMipsOp "ins" "t,s,i5,ji" (MIPS_SPECIAL3 4) (flags [MA_PSP]) (flags []);
  mkMipsOp "wsbh" "d,t" (MIPS_ALLEGREX0 0x02) (flags [MA_PSP]) (flags []);
  mkMipsOp "wsbh" "d" (MIPS_ALLEGREX0 0x02) (flags [MA_PSP]) (flags []);
  mkMipsOp "wsbw" "d,t" (MIPS_ALLEGREX0 0x03) (flags [MA_PSP]) (flags []);
  mkMipsOp "wsbw" "d" (MIPS_ALLEGREX0 0x03) (flags [MA_PSP]) (flags []);
  mkMipsOp "seb" "d,t" (MIPS_ALLEGREX0 0x10) (flags [MA_PSP]) (flags []);
  mkMipsOp "seb" "d" (MIPS_ALLEGREX0 0x10) (flags [MA_PSP]) (flags []);
  mkMipsOp "bitrev" "d,t" (MIPS_ALLEGREX0 0x14) (flags [MA_PSP]) (flags []);
  mkMipsOp "bitrev" "d" (MIPS_ALLEGREX0 0x14) (flags [MA_PSP]) (flags []);
  mkMipsOp "seh" "d,t" (MIPS_ALLEGREX0 0x18) (flags [MA_PSP]) (flags []);
  mkMipsOp "seh" "d" (MIPS_ALLEGREX0 0x18) (flags [MA_PSP]) (flags []);
  mkMipsOp "vcst.S" "vd,Wc" (MIPS_VFPU4 0x03) (flags [MA_PSP]) (flags [MO_VFPU]);
  mkMipsOp "vf2in.S" "vd,vs,i5" (MIPS_VFPU4 0x10) (flags [MA_PSP]) (flags [MO_VFPU]);
  mkMipsOp "vf2iz.S" "vd,vs,i5" (MIPS_VFPU4 0x11) (flags [MA_PSP]) (flags [MO_VFPU]);
  mkMipsOp "vf2iu.S" "vd,vs,i5" (MIPS_VFPU4 0x12) (flags [MA_PSP]) (flags [MO_VFPU]);
  mkMipsOp "vf2id.S" "vd,vs,i5" (MIPS_VFPU4 0x13) (flags [MA_PSP]) (flags [MO_VFPU]);
  mkMipsOp "vi2f.S" "vd,vs,i5" (MIPS_VFPU4 0x14) (flags [MA_PSP]) (flags [MO_VFPU]);
  mkMipsOp "vcmovt.S" "vd,vs,i5" (Z.lor (MIPS_VFPU4 0x15) 0) (flags [MA_PSP]) (flags [MO_VFPU]);
  mkMipsOp "vcmovf.S" "vd,vs,i5" (Z.lor (MIPS_VFPU4 0x15) (Z.shiftl 1 19)) (flags [MA_PSP]) (flags [MO_VFPU]);
  mkMipsOp "vwbn.S" "vd,vs,i5" (MIPS_VFPU4 0x18) (flags [MA_PSP]) (flags [MO_VFPU]);
  mkMipsOp "vmov.S" "vd,vs" (MIPS_VFPU4_11 0x00) (flags [MA_PSP]) (flags [MO_VFPU]);
  mkMipsOp "vabs.S" "vd,vs" (MIPS_VFPU4_11 0x01) (flags [MA_PSP]) (flags [MO_VFPU]);
  mkMipsOp "vneg.S" "vd,vs" (MIPS_VFPU4_11 0x02) (flags [MA_PSP]) (flags [MO_VFPU]);
  mkMipsOp "vidt.S" "vd" (MIPS_VFPU4_11 0x03) (flags [MA_PSP]) (flags [MO_VFPU]);
  mkMipsOp "vsat0.S" "vd,vs" (MIPS_VFPU4_11 0x04) (flags [MA_PSP]) (flags [MO_VFPU]);
  mkMipsOp "vsat1.S" "vd,vs" (MIPS_VFPU4_11 0x05) (flags [MA_PSP]) (flags [MO_VFPU]);
  mkMipsOp "vzero.S" "vd" (MIPS_VFPU4_11 0x06) (flags [MA_PSP]) (flags [MO_VFPU]);
  mkMipsOp "vone.S" "vd" (MIPS_VFPU4_11 0x07) (flags [MA_PSP]) (flags [MO_VFPU]);
  mkMipsOp "vrcp.S" "vd,vs" (MIPS_VFPU4_11 0x10) (flags [MA_PSP]) (flags [MO_VFPU]);
  mkMipsOp "vrsq.S" "vd,vs" (MIPS_VFPU4_11 0x11) (flags [MA_PSP]) (flags [MO_VFPU]);
  mkMipsOp "vsin.S" "vd,vs" (MIPS_VFPU4_11 0x12) (flags [MA_PSP]) (flags [MO_VFPU]);
  mkMipsOp "vcos.S" "vd,vs" (MIPS_VFPU4_11 0x13) (flags [MA_PSP]) (flags [MO_VFPU]);
  mkMipsOp "vexp2.S" "vd,vs" (MIPS_VFPU4_11 0x14) (flags [MA_PSP]) (flags [MO_VFPU]);
  mkMipsOp "vlog2.S" "vd,vs" (MIPS_VFPU4_11 0x15) (flags [MA_PSP]) (flags [MO_VFPU]);
  mkMipsOp "vsqrt.S" "vd,vs" (MIPS_VFPU4_11 0x16) (flags [MA_PSP]) (flags [MO_VFPU]);
  mkMipsOp "vasin.S" "vd,vs" (MIPS_VFPU4_11 0x17) (flags [MA_PSP]) (flags [MO_VFPU]);
  mkMipsOp "vnrcp.S" "vd,vs" (MIPS_VFPU4_11 0x18) (flags [MA_PSP]) (flags [MO_VFPU]);
  mkMipsOp "vnsin.S" "vd,vs" (MIPS_VFPU4_11 0x1a) (flags [MA_PSP]) (flags [MO_VFPU]);
  mkMipsOp "vrexp2.S" "vd,vs" (MIPS_VFPU4_11 0x1c) (flags [MA_PSP]) (flags [MO_VFPU]);
  mkMipsOp "vrnds.S" "vd" (MIPS_VFPU4_12 0x00) (flags [MA_PSP]) (flags [MO_VFPU]);
  mkMipsOp "vrndi.S" "vd" (MIPS_VFPU4_12 0x01) (flags [MA_PSP]) (flags [MO_VFPU]);
  mkMipsOp "vrndf1.S" "vd" (MIPS_VFPU4_12 0x02) (flags [MA_PSP]) (flags [MO_VFPU]);
  mkMipsOp "vrndf2.S" "vd" (MIPS_VFPU4_12 0x03) (flags [MA_PSP]) (flags [MO_VFPU]);
  mkMipsOp "vf2h.S" "vHd,vs" (MIPS_VFPU4_12 0x12) (flags [MA_PSP]) (flags [MO_VFPU]);
  mkMipsOp "vh2f.S" "vDd,vs" (MIPS_VFPU4_12 0x13) (flags [MA_PSP]) (flags [MO_VFPU]);
  mkMipsOp "vlgb.S" "vd,vs" (MIPS_VFPU4_12 0x17) (flags [MA_PSP]) (flags [MO_VFPU]);
  mkMipsOp "vuc2ifs.S" "vQd,vs" (MIPS_VFPU4_12 0x18) (flags [MA_PSP]) (flags [MO_VFPU]);
  mkMipsOp "vc2i.S" "vQd,vs" (MIPS_VFPU4_12 0x19) (flags [MA_PSP]) (flags [MO_VFPU]);
  mkMipsOp "vus2i.S" "vDd,vs" (MIPS_VFPU4_12 0x1a) (flags [MA_PSP]) (flags [MO_VFPU]);
  mkMipsOp "vs2i.S" "vDd,vs" (MIPS_VFPU4_12 0x1b) (flags [MA_PSP]) (flags [MO_VFPU]);
  mkMipsOp "vi2uc.S" "vFd,vs" (MIPS_VFPU4_12 0x1c) (flags [MA_PSP]) (flags [MO_VFPU]);
  mkMipsOp "vi2c.S" "vFd,vs" (MIPS_VFPU4_12 0x1d) (flags [MA_PSP]) (flags [MO_VFPU]);
  mkMipsOp "vi2us.S" "vHd,vs" (MIPS_VFPU4_12 0x1e) (flags [MA_PSP]) (flags [MO_VFPU]);
  mkMipsOp "vi2s.S" "vHd,vs" (MIPS_VFPU4_12 0x1f) (flags [MA_PSP]) (flags [MO_VFPU]);
  mkMipsOp "vsrt1.S" "vd,vs" (MIPS_VFPU4_13 0x00) (flags [MA_PSP]) (flags [MO_VFPU]);
  mkMipsOp "vsrt2.S" "vd,vs" (MIPS_VFPU4_13 0x01) (flags [MA_PSP]) (flags [MO_VFPU]);
  mkMipsOp "vbfy1.S" "vd,vs" (MIPS_VFPU4_13 0x02) (flags [MA_PSP]) (flags [MO_VFPU]);
  mkMipsOp "vbfy2.S" "vd,vs" (MIPS_VFPU4_13 0x03) (flags [MA_PSP]) (flags [MO_VFPU]);
  mkMipsOp "vocp.S" "vd,vs" (MIPS_VFPU4_13 0x04) (flags [MA_PSP]) (flags [MO_VFPU]);
  mkMipsOp "vsocp.S" "vd,vs" (MIPS_VFPU4_13 0x05) (flags [MA_PSP]) (flags [MO_VFPU]);
  mkMipsOp "vfad.p" "vSd,vs" (Z.lor (MIPS_VFPU4_13 0x06) (MIPS_VFPUSIZE 1)) (flags [MA_PSP]) (flags [MO_VFPU; MO_VFPU_PAIR]);
  mkMipsOp "vfad.t" "vSd,vs" (Z.lor (MIPS_VFPU4_13 0x06) (MIPS_VFPUSIZE 2)) (flags [MA_PSP]) (flags [MO_VFPU; MO_VFPU_TRIPLE]);
  mkMipsOp "vfad.q" "vSd,vs" (Z.lor (MIPS_VFPU4_13 0x06) (MIPS_VFPUSIZE 3)) (flags [MA_PSP]) (flags [MO_VFPU; MO_VFPU_QUAD]);
  mkMipsOp "vavg.p" "vSd,vs" (Z.lor (MIPS_VFPU4_13 0x07) (MIPS_VFPUSIZE 1)) (flags [MA_PSP]) (flags [MO_VFPU; MO_VFPU_PAIR]);
  mkMipsOp "vavg.t" "vSd,vs" (Z.lor (MIPS_VFPU4_13 0x07) (MIPS_VFPUSIZE 2)) (flags [MA_PSP]) (flags [MO_VFPU; MO_VFPU_TRIPLE]);
  mkMipsOp "vavg.q" "vSd,vs" (Z.lor (MIPS_VFPU4_13 0x07) (MIPS_VFPUSIZE 3)) (flags [MA_PSP]) (flags [MO_VFPU; MO_VFPU_QUAD]);
  mkMipsOp "vsrt3.S" "vd,vs" (MIPS_VFPU4_13 0x08) (flags [MA_PSP]) (flags [MO_VFPU]);
  mkMipsOp "vsrt4.S" "vd,vs" (MIPS_VFPU4_13 0x09) (flags [MA_PSP]) (flags [MO_VFPU]);
  mkMipsOp "vsgn.S" "vd,vs" (MIPS_VFPU4_13 0x0a) (flags [MA_PSP]) (flags [MO_VFPU]);
  mkMipsOp "vmfv.S" "vs,i7" (Z.lor (MIPS_VFPU4_13 0x10) 0x00) (flags [MA_PSP]) (flags [MO_VFPU]);
  mkMipsOp "vmtv.S" "vs,i7" (Z.lor (MIPS_VFPU4_13 0x11) 0x00) (flags [MA_PSP]) (flags [MO_VFPU]);
  mkMipsOp "vmfvc.S" "vs,i7" (Z.lor (MIPS_VFPU4_13 0x10) 0x80) (flags [MA_PSP]) (flags [MO_VFPU]);
  mkMipsOp "vmtvc.S" "vs,i7" (Z.lor (MIPS_VFPU4_13 0x11) 0x80) (flags [MA_PSP]) (flags [MO_VFPU]);
  mkMipsOp "vt4444.S" "vHd,vs" (MIPS_VFPU4_13 0x19) (flags [MA_PSP]) (flags [MO_VFPU]);
  mkMipsOp "vt5551.S" "vHd,vs" (MIPS_VFPU4_13 0x1a) (flags [MA_PSP]) (flags [MO_VFPU]);
  mkMipsOp "vt5650.S" "vHd,vs" (MIPS_VFPU4_13 0x1b) (flags [MA_PSP]) (flags [MO_VFPU]);
  mkMipsOp "vpfxs" "Ws" (MIPS_VFPU5 0) (flags [MA_PSP]) (flags []);
  mkMipsOp "vpfxt" "Ws" (MIPS_VFPU5 2) (flags [MA_PSP]) (flags []);
  mkMipsOp "vpfxd" "Wd" (MIPS_VFPU5 4) (flags [MA_PSP]) (flags []);
  mkMipsOp "viim.s" "vt,i16" (MIPS_VFPU5 6) (flags [MA_PSP]) (flags [MO_VFPU_SINGLE]);
  mkMipsOp "vfim.s" "vt,ih" (MIPS_VFPU5 7) (flags [MA_PSP]) (flags [MO_VFPU_SINGLE]);
  mkMipsOp "vmmul.S" "md,ms,mt" (MIPS_VFPU6 0) (flags [MA_PSP]) (flags [MO_VFPU; MO_VFPU_TRANSPOSE_VS]);
  mkMipsOp "vtfm2.p" "vd,ms,vt" (Z.lor (MIPS_VFPU6 1) (MIPS_VFPUSIZE 1)) (flags [MA_PSP]) (flags [MO_VFPU; MO_VFPU_PAIR]);
  mkMipsOp "vhtfm2.p" "vd,ms,vt" (Z.lor (MIPS_VFPU6 2) (MIPS_VFPUSIZE 1)) (flags [MA_PSP]) (flags [MO_VFPU; MO_VFPU_PAIR]);
  mkMipsOp "vtfm3.t" "vd,ms,vt" (Z.lor (MIPS_VFPU6 2) (MIPS_VFPUSIZE 2)) (flags [MA_PSP]) (flags [MO_VFPU; MO_VFPU_TRIPLE]);
  mkMipsOp "vhtfm3.t" "vd,ms,vt" (Z.lor (MIPS_VFPU6 3) (MIPS_VFPUSIZE 2)) (flags [MA_PSP]) (flags [MO_VFPU; MO_VFPU_TRIPLE]);
  mkMipsOp "vtfm4.q" "vd,ms,vt" (Z.lor (MIPS_VFPU6 3) (MIPS_VFPUSIZE 3)) (flags [MA_PSP]) (flags [MO_VFPU; MO_VFPU_QUAD]);
  mkMipsOp "vmscl.S" "md,ms,vSt" (MIPS_VFPU6 4) (flags [MA_PSP]) (flags [MO_VFPU]);
  mkMipsOp "vcrsp.t" "vd,vs,vt" (Z.lor (MIPS_VFPU6 5) (MIPS_VFPUSIZE 2)) (flags [MA_PSP]) (flags [MO_VFPU; MO_VFPU_TRIPLE]);
  mkMipsOp "vqmul.q" "vd,vs,vt" (Z.lor (MIPS_VFPU6 5) (MIPS_VFPUSIZE 3)) (flags [MA_PSP]) (flags [MO_VFPU; MO_VFPU_QUAD]);
  mkMipsOp "vrot.S" "vd,vSs,Wr" MIPS_VFPU6_1VROT (flags [MA_PSP]) (flags [MO_VFPU]);
  mkMipsOp "vmmov.S" "md,ms" (MIPS_VFPU6_2 0) (flags [MA_PSP]) (flags [MO_VFPU]);
  mkMipsOp "vmidt.S" "md" (MIPS_VFPU6_2 3) (flags [MA_PSP]) (flags [MO_VFPU]);
  mkMipsOp "vmzero.S" "md" (MIPS_VFPU6_2 6) (flags [MA_PSP]) (flags [MO_VFPU]);
  mkMipsOp "vmone.S" "md" (MIPS_VFPU6_2 7) (flags [MA_PSP]) (flags [MO_VFPU]);
  mkMipsOp "vmulf" "Rd,Rs,RtRe" (MIPS_RSP_COP2 0x00) (flags [MA_RSP]) (flags []);
  mkMipsOp "vmulf" "Rs,RtRe" (MIPS_RSP_COP2 0x00) (flags [MA_RSP]) (flags [MO_RSP_VRSD]);
  mkMipsOp "vmulu" "Rd,Rs,RtRe" (MIPS_RSP_COP2 0x01) (flags [MA_RSP]) (flags []);
  mkMipsOp "vmulu" "Rs,RtRe" (MIPS_RSP_COP2 0x01) (flags [MA_RSP]) (flags [MO_RSP_VRSD]);
  mkMipsOp "vrndp" "Rd,Rs,RtRe" (MIPS_RSP_COP2 0x02) (flags [MA_RSP]) (flags []);
  mkMipsOp "vrndp" "Rs,RtRe" (MIPS_RSP_COP2 0x02) (flags [MA_RSP]) (flags [MO_RSP_VRSD]);
  mkMipsOp "vmulq" "Rd,Rs,RtRe" (MIPS_RSP_COP2 0x03) (flags [MA_RSP]) (flags []);
  mkMipsOp "vmulq" "Rs,RtRe" (MIPS_RSP_COP2 0x03) (flags [MA_RSP]) (flags [MO_RSP_VRSD]);
  mkMipsOp "vmudl" "Rd,Rs,RtRe" (MIPS_RSP_COP2 0x04) (flags [MA_RSP]) (flags []);
  mkMipsOp "vmudl" "Rs,RtRe" (MIPS_RSP_COP2 0x04) (flags [MA_RSP]) (flags [MO_RSP_VRSD]);
  mkMipsOp "vmudm" "Rd,Rs,RtRe" (MIPS_RSP_COP2 0x05) (flags [MA_RSP]) (flags []);
  mkMipsOp "vmudm" "Rs,RtRe" (MIPS_RSP_COP2 0x05) (flags [MA_RSP]) (flags [MO_RSP_VRSD]);
  mkMipsOp "vmudn" "Rd,Rs,RtRe" (MIPS_RSP_COP2 0x06) (flags [MA_RSP]) (flags []);
  mkMipsOp "vmudn" "Rs,RtRe" (MIPS_RSP_COP2 0x06) (flags [MA_RSP]) (flags [MO_RSP_VRSD]);
  mkMipsOp "vmudh" "Rd,Rs,RtRe" (MIPS_RSP_COP2 0x07) (flags [MA_RSP]) (flags []);
  mkMipsOp "vmudh" "Rs,RtRe" (MIPS_RSP_COP2 0x07) (flags [MA_RSP]) (flags [MO_RSP_VRSD]);
  mkMipsOp "vmacf" "Rd,Rs,RtRe" (MIPS_RSP_COP2 0x08) (flags [MA_RSP]) (flags []);
  mkMipsOp "vmacf" "Rs,RtRe" (MIPS_RSP_COP2 0x08) (flags [MA_RSP]) (flags [MO_RSP_VRSD]);
  mkMipsOp "vmacu" "Rd,Rs,RtRe" (MIPS_RSP_COP2 0x09) (flags [MA_RSP]) (flags []);
  mkMipsOp "vmacu" "Rs,RtRe" (MIPS_RSP_COP2 0x09) (flags [MA_RSP]) (flags [MO_RSP_VRSD]);
  mkMipsOp "vrndn" "Rd,Rs,RtRe" (MIPS_RSP_COP2 0x0a) (flags [MA_RSP]) (flags []);
  mkMipsOp "vrndn" "Rs,RtRe" (MIPS_RSP_COP2 0x0a) (flags [MA_RSP]) (flags [MO_RSP_VRSD]);
  mkMipsOp "vmacq" "Rd,Rs,RtRe" (MIPS_RSP_COP2 0x0b) (flags [MA_RSP]) (flags []);
  mkMipsOp "vmacq" "Rs,RtRe" (MIPS_RSP_COP2 0x0b) (flags [MA_RSP]) (flags [MO_RSP_VRSD]);
  mkMipsOp "vmadl" "Rd,Rs,RtRe" (MIPS_RSP_COP2 0x0c) (flags [MA_RSP]) (flags []);
  mkMipsOp "vmadl" "Rs,RtRe" (MIPS_RSP_COP2 0x0c) (flags [MA_RSP]) (flags [MO_RSP_VRSD]);
  mkMipsOp "vmadm" "Rd,Rs,RtRe" (MIPS_RSP_COP2 0x0d) (flags [MA_RSP]) (flags []);
  mkMipsOp "vmadm" "Rs,RtRe" (MIPS_RSP_COP2 0x0d) (flags [MA_RSP]) (flags [MO_RSP_VRSD]);
  mkMipsOp "vmadn" "Rd,Rs,RtRe" (MIPS_RSP_COP2 0x0e) (flags [MA_RSP]) (flags []);
  mkMipsOp "vmadn" "Rs,RtRe" (MIPS_RSP_COP2 0x0e) (flags [MA_RSP]) (flags [MO_RSP_VRSD]);
  mkMipsOp "vmadh" "Rd,Rs,RtRe" (MIPS_RSP_COP2 0x0f) (flags [MA_RSP]) (flags []);
  mkMipsOp "vmadh" "Rs,RtRe" (MIPS_RSP_COP2 0x0f) (flags [MA_RSP]) (flags [MO_RSP_VRSD]);
  mkMipsOp "vadd" "Rd,Rs,RtRe" (MIPS_RSP_COP2 0x10) (flags [MA_RSP]) (flags []);
  mkMipsOp "vadd" "Rs,RtRe" (MIPS_RSP_COP2 0x10) (flags [MA_RSP]) (flags [MO_RSP_VRSD]);
  mkMipsOp "vsub" "Rd,Rs,RtRe" (MIPS_RSP_COP2 0x11) (flags [MA_RSP]) (flags []);
  mkMipsOp "vsub" "Rs,RtRe" (MIPS_RSP_COP2 0x11) (flags [MA_RSP]) (flags [MO_RSP_VRSD]);
  mkMipsOp "vsut" "Rd,Rs,RtRe" (MIPS_RSP_COP2 0x12) (flags [MA_RSP]) (flags []);
  mkMipsOp "vsut" "Rs,RtRe" (MIPS_RSP_COP2 0x12) (flags [MA_RSP]) (flags [MO_RSP_VRSD]);
  mkMipsOp "vabs" "Rd,Rs,RtRe" (MIPS_RSP_COP2 0x13) (flags [MA_RSP]) (flags []);
  mkMipsOp "vabs" "Rs,RtRe" (MIPS_RSP_COP2 0x13) (flags [MA_RSP]) (flags [MO_RSP_VRSD]);
  mkMipsOp "vaddc" "Rd,Rs,RtRe" (MIPS_RSP_COP2 0x14) (flags [MA_RSP]) (flags []);
  mkMipsOp "vaddc" "Rs,RtRe" (MIPS_RSP_COP2 0x14) (flags [MA_RSP]) (flags [MO_RSP_VRSD]);
  mkMipsOp "vsubc" "Rd,Rs,RtRe" (MIPS_RSP_COP2 0x15) (flags [MA_RSP]) (flags []);
  mkMipsOp "vsubc" "Rs,RtRe" (MIPS_RSP_COP2 0x15) (flags [MA_RSP]) (flags [MO_RSP_VRSD]);
  mkMipsOp "vaddb" "Rd,Rs,RtRe" (MIPS_RSP_COP2 0x16) (flags [MA_RSP]) (flags []);
  mkMipsOp "vaddb" "Rs,RtRe" (MIPS_RSP_COP2 0x16) (flags [MA_RSP]) (flags [MO_RSP_VRSD]);
  mkMipsOp "vsubb" "Rd,Rs,RtRe" (MIPS_RSP_COP2 0x17) (flags [MA_RSP]) (flags []);
  mkMipsOp "vsubb" "Rs,RtRe" (MIPS_RSP_COP2 0x17) (flags [MA_RSP]) (flags [MO_RSP_VRSD]);
  mkMipsOp "vaccb" "Rd,Rs,RtRe" (MIPS_RSP_COP2 0x18) (flags [MA_RSP]) (flags []);
  mkMipsOp "vaccb" "Rs,RtRe" (MIPS_RSP_COP2 0x18) (flags [MA_RSP]) (flags [MO_RSP_VRSD]);
  mkMipsOp "vsucb" "Rd,Rs,RtRe" (MIPS_RSP_COP2 0x19) (flags [MA_RSP]) (flags []);
  mkMipsOp "vsucb" "Rs,RtRe" (MIPS_RSP_COP2 0x19) (flags [MA_RSP]) (flags [MO_RSP_VRSD]);
  mkMipsOp "vsad" "Rd,Rs,RtRe" (MIPS_RSP_COP2 0x1a) (flags [MA_RSP]) (flags []);
  mkMipsOp "vsad" "Rs,RtRe" (MIPS_RSP_COP2 0x1a) (flags [MA_RSP]) (flags [MO_RSP_VRSD]);
  mkMipsOp "vsac" "Rd,Rs,RtRe" (MIPS_RSP_COP2 0x1b) (flags [MA_RSP]) (flags []);
  mkMipsOp "vsac" "Rs,RtRe" (MIPS_RSP_COP2 0x1b) (flags [MA_RSP]) (flags [MO_RSP_VRSD]);
  mkMipsOp "vsum" "Rd,Rs,RtRe" (MIPS_RSP_COP2 0x1c) (flags [MA_RSP]) (flags []);
  mkMipsOp "vsum" "Rs,RtRe" (MIPS_RSP_COP2 0x1c) (flags [MA_RSP]) (flags [MO_RSP_VRSD]);
  mkMipsOp "vsar" "Rd,Rs,RtRe" (MIPS_RSP_COP2 0x1d) (flags [MA_RSP]) (flags []);
  mkMipsOp "vsar" "Rs,RtRe" (MIPS_RSP_COP2 0x1d) (flags [MA_RSP]) (flags [MO_RSP_VRSD]);
  mkMipsOp "vacc" "Rd,Rs,RtRe" (MIPS_RSP_COP2 0x1e) (flags [MA_RSP]) (flags []);
  mkMipsOp "vacc" "Rs,RtRe" (MIPS_RSP_COP2 0x1e) (flags [MA_RSP]) (flags [MO_RSP_VRSD]);
  mkMipsOp "vsuc" "Rd,Rs,RtRe" (MIPS_RSP_COP2 0x1f) (flags [MA_RSP]) (flags []);
  mkMipsOp "vsuc" "Rs,RtRe" (MIPS_RSP_COP2 0x1f) (flags [MA_RSP]) (flags [MO_RSP_VRSD]);
  mkMipsOp "vlt" "Rd,Rs,RtRe" (MIPS_RSP_COP2 0x20) (flags [MA_RSP]) (flags []);
  mkMipsOp "vlt" "Rs,RtRe" (MIPS_RSP_COP2 0x20) (flags [MA_RSP]) (flags [MO_RSP_VRSD]);
  mkMipsOp "veq" "Rd,Rs,RtRe" (MIPS_RSP_COP2 0x21) (flags [MA_RSP]) (flags []);
  mkMipsOp "veq" "Rs,RtRe" (MIPS_RSP_COP2 0x21) (flags [MA_RSP]) (flags [MO_RSP_VRSD]);
  mkMipsOp "vne" "Rd,Rs,RtRe" (MIPS_RSP_COP2 0x22) (flags [MA_RSP]) (flags []);
  mkMipsOp "vne" "Rs,RtRe" (MIPS_RSP_COP2 0x22) (flags [MA_RSP]) (flags [MO_RSP_VRSD]);
  mkMipsOp "vge" "Rd,Rs,RtRe" (MIPS_RSP_COP2 0x23) (flags [MA_RSP]) (flags []);
  mkMipsOp "vge" "Rs,RtRe" (MIPS_RSP_COP2 0x23) (flags [MA_RSP]) (flags [MO_RSP_VRSD]);
  mkMipsOp "vcl" "Rd,Rs,RtRe" (MIPS_RSP_COP2 0x24) (flags [MA_RSP]) (flags []);
  mkMipsOp "vcl" "Rs,RtRe" (MIPS_RSP_COP2 0x24) (flags [MA_RSP]) (flags [MO_RSP_VRSD]);
  mkMipsOp "vch" "Rd,Rs,RtRe" (MIPS_RSP_COP2 0x25) (flags [MA_RSP]) (flags []);
  mkMipsOp "vch" "Rs,RtRe" (MIPS_RSP_COP2 0x25) (flags [MA_RSP]) (flags [MO_RSP_VRSD]);
  mkMipsOp "vcr" "Rd,Rs,RtRe" (MIPS_RSP_COP2 0x26) (flags [MA_RSP]) (flags []);
  mkMipsOp "vcr" "Rs,RtRe" (MIPS_RSP_COP2 0x26) (flags [MA_RSP]) (flags [MO_RSP_VRSD]);
  mkMipsOp "vmrg" "Rd,Rs,RtRe" (MIPS_RSP_COP2 0x27) (flags [MA_RSP]) (flags []);
  mkMipsOp "vmrg" "Rs,RtRe" (MIPS_RSP_COP2 0x27) (flags [MA_RSP]) (flags [MO_RSP_VRSD]);
  mkMipsOp "vand" "Rd,Rs,RtRe" (MIPS_RSP_COP2 0x28) (flags [MA_RSP]) (flags []);
  mkMipsOp "vand" "Rs,RtRe" (MIPS_RSP_COP2 0x28) (flags [MA_RSP]) (flags [MO_RSP_VRSD]);
  mkMipsOp "vnand" "Rd,Rs,RtRe" (MIPS_RSP_COP2 0x29) (flags [MA_RSP]) (flags []);
  mkMipsOp "vnand" "Rs,RtRe" (MIPS_RSP_COP2 0x29) (flags [MA_RSP]) (flags [MO_RSP_VRSD]);
  mkMipsOp "vor" "Rd,Rs,RtRe" (MIPS_RSP_COP2 0x2a) (flags [MA_RSP]) (flags []);
  mkMipsOp "vor" "Rs,RtRe" (MIPS_RSP_COP2 0x2a) (flags [MA_RSP]) (flags [MO_RSP_VRSD]);
  mkMipsOp "vnor" "Rd,Rs,RtRe" (MIPS_RSP_COP2 0x2b) (flags [MA_RSP]) (flags []);
  mkMipsOp "vnor" "Rs,RtRe" (MIPS_RSP_COP2 0x2b) (flags [MA_RSP]) (flags [MO_RSP_VRSD]);
  mkMipsOp "vxor" "Rd,Rs,RtRe" (MIPS_RSP_COP2 0x2c) (flags [MA_RSP]) (flags []);
  mkMipsOp "vxor" "Rs,RtRe" (MIPS_RSP_COP2 0x2c) (flags [MA_RSP]) (flags [MO_RSP_VRSD]);
  mkMipsOp "vnxor" "Rd,Rs,RtRe" (MIPS_RSP_COP2 0x2d) (flags [MA_RSP]) (flags []);
  mkMipsOp "vnxor" "Rs,RtRe" (MIPS_RSP_COP2 0x2d) (flags [MA_RSP]) (flags [MO_RSP_VRSD]);
  mkMipsOp "vrcp" "RdRm,RtRl" (MIPS_RSP_COP2 0x30) (flags [MA_RSP]) (flags []);
  mkMipsOp "vrcpl" "RdRm,RtRl" (MIPS_RSP_COP2 0x31) (flags [MA_RSP]) (flags []);
  mkMipsOp "vrcph" "RdRm,RtRl" (MIPS_RSP_COP2 0x32) (flags [MA_RSP]) (flags []);
  mkMipsOp "vmov" "RdRm,RtRl" (MIPS_RSP_COP2 0x33) (flags [MA_RSP]) (flags []);
  mkMipsOp "vrsq" "RdRm,RtRl" (MIPS_RSP_COP2 0x34) (flags [MA_RSP]) (flags []);
  mkMipsOp "vrsql" "RdRm,RtRl" (MIPS_RSP_COP2 0x35) (flags [MA_RSP]) (flags []);
  mkMipsOp "vrsqh" "RdRm,RtRl" (MIPS_RSP_COP2 0x36) (flags [MA_RSP]) (flags []);
  mkMipsOp "vnop" "" (MIPS_RSP_COP2 0x37) (flags [MA_RSP]) (flags []);
  mkMipsOp "vextt" "Rd,Rs,RtRe" (MIPS_RSP_COP2 0x38) (flags [MA_RSP]) (flags []);
  mkMipsOp "vextt" "Rs,RtRe" (MIPS_RSP_COP2 0x38) (flags [MA_RSP]) (flags [MO_RSP_VRSD]);
  mkMipsOp "vextq" "Rd,Rs,RtRe" (MIPS_RSP_COP2 0x39) (flags [MA_RSP]) (flags []);
  mkMipsOp "vextq" "Rs,RtRe" (MIPS_RSP_COP2 0x39) (flags [MA_RSP]) (flags [MO_RSP_VRSD]);
  mkMipsOp "vextn" "Rd,Rs,RtRe" (MIPS_RSP_COP2 0x3a) (flags [MA_RSP]) (flags []);
  mkMipsOp "vextn" "Rs,RtRe" (MIPS_RSP_COP2 0x3a) (flags [MA_RSP]) (flags [MO_RSP_VRSD]);
  mkMipsOp "vinst" "Rd,Rs,RtRe" (MIPS_RSP_COP2 0x3c) (flags [MA_RSP]) (flags []);
  mkMipsOp "vinst" "Rs,RtRe" (MIPS_RSP_COP2 0x3c) (flags [MA_RSP]) (flags [MO_RSP_VRSD]);
  mkMipsOp "vinsq" "Rd,Rs,RtRe" (MIPS_RSP_COP2 0x3d) (flags [MA_RSP]) (flags []);
  mkMipsOp "vinsq" "Rs,RtRe" (MIPS_RSP_COP2 0x3d) (flags [MA_RSP]) (flags [MO_RSP_VRSD]);
  mkMipsOp "vinsn" "Rd,Rs,RtRe" (MIPS_RSP_COP2 0x3e) (flags [MA_RSP]) (flags []);
  mkMipsOp "vinsn" "Rs,RtRe" (MIPS_RSP_COP2 0x3e) (flags [MA_RSP]) (flags [MO_RSP_VRSD]);
  mkMipsOp "vnull" "" (MIPS_RSP_COP2 0x3f) (flags [MA_RSP]) (flags []);
  mkMipsOp "lbv" "RtRo,i7(s)" (MIPS_RSP_LWC2 0x00) (flags [MA_RSP]) (flags []);
  mkMipsOp "lbv" "RtRo,(s)" (MIPS_RSP_LWC2 0x00) (flags [MA_RSP]) (flags []);
  mkMipsOp "lsv" "RtRo,i7(s)" (MIPS_RSP_LWC2 0x01) (flags [MA_RSP]) (flags [MO_RSP_HWOFFSET]);
  mkMipsOp "lsv" "RtRo,(s)" (MIPS_RSP_LWC2 0x01) (flags [MA_RSP]) (flags [MO_RSP_HWOFFSET]);
  mkMipsOp "llv" "RtRo,i7(s)" (MIPS_RSP_LWC2 0x02) (flags [MA_RSP]) (flags [MO_RSP_WOFFSET]);
  mkMipsOp "llv" "RtRo,(s)" (MIPS_RSP_LWC2 0x02) (flags [MA_RSP]) (flags [MO_RSP_WOFFSET]);
  mkMipsOp "ldv" "RtRo,i7(s)" (MIPS_RSP_LWC2 0x03) (flags [MA_RSP]) (flags [MO_RSP_DWOFFSET]);
  mkMipsOp "ldv" "RtRo,(s)" (MIPS_RSP_LWC2 0x03) (flags [MA_RSP]) (flags [MO_RSP_DWOFFSET]);
  mkMipsOp "lqv" "RtRo,i7(s)" (MIPS_RSP_LWC2 0x04) (flags [MA_RSP]) (flags [MO_RSP_QWOFFSET]);
  mkMipsOp "lqv" "RtRo,(s)" (MIPS_RSP_LWC2 0x04) (flags [MA_RSP]) (flags [MO_RSP_QWOFFSET]);
  mkMipsOp "lrv" "RtRo,i7(s)" (MIPS_RSP_LWC2 0x05) (flags [MA_RSP]) (flags [MO_RSP_QWOFFSET]);
  mkMipsOp "lrv" "RtRo,(s)" (MIPS_RSP_LWC2 0x05) (flags [MA_RSP]) (flags [MO_RSP_QWOFFSET]);
  mkMipsOp "lpv" "RtRo,i7(s)" (MIPS_RSP_LWC2 0x06) (flags [MA_RSP]) (flags [MO_RSP_DWOFFSET]);
  mkMipsOp "lpv" "RtRo,(s)" (MIPS_RSP_LWC2 0x06) (flags [MA_RSP]) (flags [MO_RSP_DWOFFSET]);
  mkMipsOp "luv" "RtRo,i7(s)" (MIPS_RSP_LWC2 0x07) (flags [MA_RSP]) (flags [MO_RSP_DWOFFSET]);
  mkMipsOp "luv" "RtRo,(s)" (MIPS_RSP_LWC2 0x07) (flags [MA_RSP]) (flags [MO_RSP_DWOFFSET]);
  mkMipsOp "lhv" "RtRo,i7(s)" (MIPS_RSP_LWC2 0x08) (flags [MA_RSP]) (flags [MO_RSP_QWOFFSET]);
  mkMipsOp "lhv" "RtRo,(s)" (MIPS_RSP_LWC2 0x08) (flags [MA_RSP]) (flags [MO_RSP_QWOFFSET]);
  mkMipsOp "lfv" "RtRo,i7(s)" (MIPS_RSP_LWC2 0x09) (flags [MA_RSP]) (flags [MO_RSP_QWOFFSET]);
  mkMipsOp "lfv" "RtRo,(s)" (MIPS_RSP_LWC2 0x09) (flags [MA_RSP]) (flags [MO_RSP_QWOFFSET]);
  mkMipsOp "ltv" "RtRo,i7(s)" (MIPS_RSP_LWC2 0x0b) (flags [MA_RSP]) (flags [MO_RSP_QWOFFSET]);
  mkMipsOp "ltv" "RtRo,(s)" (MIPS_RSP_LWC2 0x0b) (flags [MA_RSP]) (flags [MO_RSP_QWOFFSET]);
  mkMipsOp "sbv" "RtRo,i7(s)" (MIPS_RSP_SWC2 0x00) (flags [MA_RSP]) (flags []);
  mkMipsOp "sbv" "RtRo,(s)" (MIPS_RSP_SWC2 0x00) (flags [MA_RSP]) (flags []);
  mkMipsOp "ssv" "RtRo,i7(s)" (MIPS_RSP_SWC2 0x01) (flags [MA_RSP]) (flags [MO_RSP_HWOFFSET]);
  mkMipsOp "ssv" "RtRo,(s)" (MIPS_RSP_SWC2 0x01) (flags [MA_RSP]) (flags [MO_RSP_HWOFFSET]);
  mkMipsOp "slv" "RtRo,i7(s)" (MIPS_RSP_SWC2 0x02) (flags [MA_RSP]) (flags [MO_RSP_WOFFSET]);
  mkMipsOp "slv" "RtRo,(s)" (MIPS_RSP_SWC2 0x02) (flags [MA_RSP]) (flags [MO_RSP_WOFFSET]);
  mkMipsOp "sdv" "RtRo,i7(s)" (MIPS_RSP_SWC2 0x03) (flags [MA_RSP]) (flags [MO_RSP_DWOFFSET]);
  mkMipsOp "sdv" "RtRo,(s)" (MIPS_RSP_SWC2 0x03) (flags [MA_RSP]) (flags [MO_RSP_DWOFFSET]);
  mkMipsOp "sqv" "RtRo,i7(s)" (MIPS_RSP_SWC2 0x04) (flags [MA_RSP]) (flags [MO_RSP_QWOFFSET]);
  mkMipsOp "sqv" "RtRo,(s)" (MIPS_RSP_SWC2 0x04) (flags [MA_RSP]) (flags [MO_RSP_QWOFFSET]);
  mkMipsOp "srv" "RtRo,i7(s)" (MIPS_RSP_SWC2 0x05) (flags [MA_RSP]) (flags [MO_RSP_QWOFFSET]);
  mkMipsOp "srv" "RtRo,(s)" (MIPS_RSP_SWC2 0x05) (flags [MA_RSP]) (flags [MO_RSP_QWOFFSET]);
  mkMipsOp "spv" "RtRo,i7(s)" (MIPS_RSP_SWC2 0x06) (flags [MA_RSP]) (flags [MO_RSP_DWOFFSET]);
  mkMipsOp "spv" "RtRo,(s)" (MIPS_RSP_SWC2 0x06) (flags [MA_RSP]) (flags [MO_RSP_DWOFFSET]);
  mkMipsOp "suv" "RtRo,i7(s)" (MIPS_RSP_SWC2 0x07) (flags [MA_RSP]) (flags [MO_RSP_DWOFFSET]);
  mkMipsOp "suv" "RtRo,(s)" (MIPS_RSP_SWC2 0x07) (flags [MA_RSP]) (flags [MO_RSP_DWOFFSET]);
  mkMipsOp "shv" "RtRo,i7(s)" (MIPS_RSP_SWC2 0x08) (flags [MA_RSP]) (flags [MO_RSP_QWOFFSET]);
  mkMipsOp "shv" "RtRo,(s)" (MIPS_RSP_SWC2 0x08) (flags [MA_RSP]) (flags [MO_RSP_QWOFFSET]);
  mkMipsOp "sfv" "RtRo,i7(s)" (MIPS_RSP_SWC2 0x09) (flags [MA_RSP]) (flags [MO_RSP_QWOFFSET]);
  mkMipsOp "sfv" "RtRo,(s)" (MIPS_RSP_SWC2 0x09) (flags [MA_RSP]) (flags [MO_RSP_QWOFFSET]);
  mkMipsOp "swv" "RtRo,i7(s)" (MIPS_RSP_SWC2 0x0a) (flags [MA_RSP]) (flags [MO_RSP_QWOFFSET]);
  mkMipsOp "swv" "RtRo,(s)" (MIPS_RSP_SWC2 0x0a) (flags [MA_RSP]) (flags [MO_RSP_QWOFFSET]);
  mkMipsOp "stv" "RtRo,i7(s)" (MIPS_RSP_SWC2 0x0b) (flags [MA_RSP]) (flags [MO_RSP_QWOFFSET]);
  mkMipsOp "stv" "RtRo,(s)" (MIPS_RSP_SWC2 0x0b) (flags [MA_RSP]) (flags [MO_RSP_QWOFFSET])
].

(** [struct MipsArchDefinition] and [mipsArchs]: MipsOpcodes.h 103-109, MipsOpcodes.cpp 1040-1053. *)
Inductive mips_arch := PSX | N64 | PS2 | PSP | RSP.
Definition supportSets (a : mips_arch) : Z :=
  match a with
  | PSX => flags [MA_MIPS1; MA_PSX]
  | N64 => flags [MA_MIPS1; MA_MIPS2; MA_MIPS3]
  | PS2 => flags [MA_MIPS1; MA_MIPS2; MA_MIPS3; MA_PS2]
  | PSP => flags [MA_MIPS1; MA_MIPS2; MA_MIPS3; MA_PSP]
  | RSP => flags [MA_MIPS1; MA_RSP]
  end.
(** Second and third columns, same lines. *)
Definition excludeMask (a : mips_arch) : Z :=
  match a with PSX => MA_EXPSX | N64 => MA_EXN64 | PS2 => MA_EXPS2 | PSP => MA_EXPSP | RSP => MA_EXRSP end.
Definition archFlags (a : mips_arch) : Z :=
  match a with
  | PSX => 0
  | N64 => flags [MO_64BIT; MO_FPU; MO_DFPU]
  | PS2 => flags [MO_64BIT; MO_FPU]
  | PSP => MO_FPU
  | RSP => 0
  end.

(** MipsParser.cpp 16-34 *)
Definition mipsRegisters : list (string * Z) := [
  ("r0", 0); ("zero", 0); ("at", 1); ("r1", 1); ("v0", 2); ("r2", 2); ("v1", 3); ("r3", 3); ("a0", 4);
  ("r4", 4); ("a1", 5); ("r5", 5); ("a2", 6); ("r6", 6); ("a3", 7); ("r7", 7); ("t0", 8); ("r8", 8);
  ("t1", 9); ("r9", 9); ("t2", 10); ("r10", 10); ("t3", 11); ("r11", 11); ("t4", 12); ("r12", 12);
  ("t5", 13); ("r13", 13); ("t6", 14); ("r14", 14); ("t7", 15); ("r15", 15); ("s0", 16); ("r16", 16);
  ("s1", 17); ("r17", 17); ("s2", 18); ("r18", 18); ("s3", 19); ("r19", 19); ("s4", 20); ("r20", 20);
  ("s5", 21); ("r21", 21); ("s6", 22); ("r22", 22); ("s7", 23); ("r23", 23); ("t8", 24); ("r24", 24);
  ("t9", 25); ("r25", 25); ("k0", 26); ("r26", 26); ("k1", 27); ("r27", 27); ("gp", 28); ("r28", 28);
  ("sp", 29); ("r29", 29); ("fp", 30); ("r30", 30); ("ra", 31); ("r31", 31); ("s8", 30)].

(** MipsParser.cpp 36-48 *)
Definition mipsFloatRegisters : list (string * Z) := [
  ("f0", 0); ("f1", 1); ("f2", 2); ("f3", 3); ("f4", 4); ("f5", 5); ("f6", 6); ("f7", 7); ("f8", 8);
  ("f9", 9); ("f00", 0); ("f01", 1); ("f02", 2); ("f03", 3); ("f04", 4); ("f05", 5); ("f06", 6); ("f07", 7);
  ("f08", 8); ("f09", 9); ("f10", 10); ("f11", 11); ("f12", 12); ("f13", 13); ("f14", 14); ("f15", 15);
  ("f16", 16); ("f17", 17); ("f18", 18); ("f19", 19); ("f20", 20); ("f21", 21); ("f22", 22); ("f23", 23);
  ("f24", 24); ("f25", 25); ("f26", 26); ("f27", 27); ("f28", 28); ("f29", 29); ("f30", 30); ("f31", 31)].

(** MipsParser.cpp 50-52 *)
Definition mipsFpuControlRegisters : list (string * Z) := [
  ("fir", 0); ("fcr0", 0); ("fcsr", 31); ("fcr31", 31)].

(** MipsParser.cpp 54-65 *)
Definition mipsCop0Registers : list (string * Z) := [
  ("index", 0); ("random", 1); ("entrylo", 2); ("entrylo0", 2); ("entrylo1", 3); ("context", 4);
  ("pagemask", 5); ("wired", 6); ("badvaddr", 8); ("count", 9); ("entryhi", 10); ("compare", 11);
  ("status", 12); ("sr", 12); ("cause", 13); ("epc", 14); ("prid", 15); ("config", 16); ("lladdr", 17);
  ("watchlo", 18); ("watchhi", 19); ("xcontext", 20); ("badpaddr", 23); ("ecc", 26); ("perr", 26);
  ("cacheerr", 27); ("taglo", 28); ("taghi", 29); ("errorepc", 30)].

(** MipsParser.cpp 67-79 *)
Definition mipsPs2Cop2FpRegisters : list (string * Z) := [
  ("vf0", 0); ("vf1", 1); ("vf2", 2); ("vf3", 3); ("vf4", 4); ("vf5", 5); ("vf6", 6); ("vf7", 7); ("vf8", 8);
  ("vf9", 9); ("vf00", 0); ("vf01", 1); ("vf02", 2); ("vf03", 3); ("vf04", 4); ("vf05", 5); ("vf06", 6);
  ("vf07", 7); ("vf08", 8); ("vf09", 9); ("vf10", 10); ("vf11", 11); ("vf12", 12); ("vf13", 13);
  ("vf14", 14); ("vf15", 15); ("vf16", 16); ("vf17", 17); ("vf18", 18); ("vf19", 19); ("vf20", 20);
  ("vf21", 21); ("vf22", 22); ("vf23", 23); ("vf24", 24); ("vf25", 25); ("vf26", 26); ("vf27", 27);
  ("vf28", 28); ("vf29", 29); ("vf30", 30); ("vf31", 31)].

(** MipsParser.cpp 81-90 *)
Definition mipsPsxCop2DataRegisters : list (string * Z) := [
  ("vxy0", 0); ("vz0", 1); ("vxy1", 2); ("vz1", 3); ("vxy2", 4); ("vz2", 5); ("rgbc", 6); ("otz", 7);
  ("ir0", 8); ("ir1", 9); ("ir2", 10); ("ir3", 11); ("sxy0", 12); ("sxy1", 13); ("sxy2", 14); ("sxyp", 15);
  ("sz0", 16); ("sz1", 17); ("sz2", 18); ("sz3", 19); ("rgb0", 20); ("rgb1", 21); ("rgb2", 22); ("res1", 23);
  ("mac0", 24); ("mac1", 25); ("mac2", 26); ("mac3", 27); ("irgb", 28); ("orgb", 29); ("lzcs", 30);
  ("lzcr", 31)].

(** MipsParser.cpp 92-101 *)
Definition mipsPsxCop2ControlRegisters : list (string * Z) := [
  ("rt0", 0); ("rt1", 1); ("rt2", 2); ("rt3", 3); ("rt4", 4); ("trx", 5); ("try", 6); ("trz", 7);
  ("llm0", 8); ("llm1", 9); ("llm2", 10); ("llm3", 11); ("llm4", 12); ("rbk", 13); ("gbk", 14); ("bbk", 15);
  ("lcm0", 16); ("lcm1", 17); ("lcm2", 18); ("lcm3", 19); ("lcm4", 20); ("rfc", 21); ("gfc", 22);
  ("bfc", 23); ("ofx", 24); ("ofy", 25); ("h", 26); ("dqa", 27); ("dqb", 28); ("zsf3", 29); ("zsf4", 30);
  ("flag", 31)].

(** MipsParser.cpp 103-110 *)
Definition mipsRspCop0Registers : list (string * Z) := [
  ("sp_mem_addr", 0); ("sp_dram_addr", 1); ("sp_rd_len", 2); ("sp_wr_len", 3); ("sp_status", 4);
  ("sp_dma_full", 5); ("sp_dma_busy", 6); ("sp_semaphore", 7); ("dpc_start", 8); ("dpc_end", 9);
  ("dpc_current", 10); ("dpc_status", 11); ("dpc_clock", 12); ("dpc_bufbusy", 13); ("dpc_pipebusy", 14);
  ("dpc_tmem", 15)].

(** MipsParser.cpp 112-114 *)
Definition mipsRspVectorControlRegisters : list (string * Z) := [
  ("vco", 0); ("vcc", 1); ("vce", 2)].

(** MipsParser.cpp 116-128 *)
Definition mipsRspVectorRegisters : list (string * Z) := [
  ("v0", 0); ("v1", 1); ("v2", 2); ("v3", 3); ("v4", 4); ("v5", 5); ("v6", 6); ("v7", 7); ("v8", 8);
  ("v9", 9); ("v00", 0); ("v01", 1); ("v02", 2); ("v03", 3); ("v04", 4); ("v05", 5); ("v06", 6); ("v07", 7);
  ("v08", 8); ("v09", 9); ("v10", 10); ("v11", 11); ("v12", 12); ("v13", 13); ("v14", 14); ("v15", 15);
  ("v16", 16); ("v17", 17); ("v18", 18); ("v19", 19); ("v20", 20); ("v21", 21); ("v22", 22); ("v23", 23);
  ("v24", 24); ("v25", 25); ("v26", 26); ("v27", 27); ("v28", 28); ("v29", 29); ("v30", 30); ("v31", 31)].
