(** Model of the MIPS macros: Archs/MIPS/MipsMacros.{h,cpp} and the macro part of
    Archs/MIPS/MipsParser.cpp.

    A macro turns a line into a text with [.if] directives and lines, which is parsed like source
    text.  Here a line is its mnemonic and its operands as in MipsModel, and an expression is its
    value, so the conditions are decided and the text is a list of lines.  Simplified:
    - the text of an operand is read back as that operand (for expressions this is C05; what cannot
      be read back is rejected by the program, so it accepts fewer lines than the model);
    - immediates that are floats are rejected here, also li.s;
    - the warnings of MipsMacroCommand::Validate (MipsMacros.cpp 20-39) and the label put in front of
      the lines (preprocessMacro, 52-63), to which "." in the operands refers, are left out. *)

Require Import ZArith Bool List String Ascii.
Require Import Verif.Ints Verif.Res Verif.MipsTable Verif.MipsModel.
Import ListNotations.
Local Open Scope string_scope.
Local Open Scope list_scope.
Local Open Scope Z_scope.

(** MipsMacros.h 10-44. *)
Definition MIPSM_B : Z := 0x1.
Definition MIPSM_BU : Z := 0x2.
Definition MIPSM_HW : Z := 0x3.
Definition MIPSM_HWU : Z := 0x4.
Definition MIPSM_W : Z := 0x5.
Definition MIPSM_WU : Z := 0x6.
Definition MIPSM_DW : Z := 0x7.
Definition MIPSM_LLSCW : Z := 0x8.
Definition MIPSM_LLSCDW : Z := 0x9.
Definition MIPSM_COP1 : Z := 0xA.
Definition MIPSM_COP2 : Z := 0xB.
Definition MIPSM_DCOP1 : Z := 0xC.
Definition MIPSM_DCOP2 : Z := 0xD.
Definition MIPSM_ACCESSMASK : Z := 0xF.
Definition MIPSM_NE : Z := 0x1.
Definition MIPSM_LT : Z := 0x2.
Definition MIPSM_LTU : Z := 0x3.
Definition MIPSM_GE : Z := 0x4.
Definition MIPSM_GEU : Z := 0x5.
Definition MIPSM_EQ : Z := 0x6.
Definition MIPSM_CONDITIONMASK : Z := 0x7.
Definition MIPSM_IMM : Z := 0x200.
Definition MIPSM_LEFT : Z := 0x400.
Definition MIPSM_RIGHT : Z := 0x800.
Definition MIPSM_UNALIGNED : Z := 0x1000.
Definition MIPSM_DONTWARNDELAYSLOT : Z := 0x2000.
Definition MIPSM_UPPER : Z := 0x4000.
Definition MIPSM_LOWER : Z := 0x8000.
Definition MIPSM_LOAD : Z := 0x10000.
Definition MIPSM_STORE : Z := 0x20000.
Definition MIPSM_LIKELY : Z := 0x40000.
Definition MIPSM_REVCMP : Z := 0x80000.

Definition mflags (l : list Z) : Z := fold_right Z.lor 0 l.
Definition has (flags bit : Z) : bool := negb (Z.land flags bit =? 0).

Inductive generator := GAbs | GLiFloat | GLi | GLoadStore | GLoadUnaligned | GStoreUnaligned | GBranch | GSet | GRotate.
(** [MipsMacroDefinition]: MipsMacros.h 50-55. *)
Record macro := mkMacro { k_name : string; k_args : string; k_gen : generator; k_flags : Z }.

(** [mipsMacros]: MipsMacros.cpp 595-771. *)
Definition mipsMacros : list macro := [
  mkMacro "abs" "d,s" GAbs (mflags [MIPSM_W]);
  mkMacro "dabs" "d,s" GAbs (mflags [MIPSM_DW]);
  mkMacro "li" "s,I" GLi (mflags [MIPSM_IMM; MIPSM_UPPER; MIPSM_LOWER]);
  mkMacro "li.u" "s,I" GLi (mflags [MIPSM_IMM; MIPSM_UPPER]);
  mkMacro "li.l" "s,I" GLi (mflags [MIPSM_IMM; MIPSM_LOWER]);
  mkMacro "la" "s,I" GLi (mflags [MIPSM_IMM; MIPSM_UPPER; MIPSM_LOWER]);
  mkMacro "la.u" "s,I" GLi (mflags [MIPSM_IMM; MIPSM_UPPER]);
  mkMacro "la.l" "s,I" GLi (mflags [MIPSM_IMM; MIPSM_LOWER]);
  mkMacro "li.s" "S,I" GLiFloat (mflags [MIPSM_IMM]);
  mkMacro "lb" "s,I" GLoadStore (mflags [MIPSM_LOAD; MIPSM_B; MIPSM_UPPER; MIPSM_LOWER]);
  mkMacro "lbu" "s,I" GLoadStore (mflags [MIPSM_LOAD; MIPSM_BU; MIPSM_UPPER; MIPSM_LOWER]);
  mkMacro "lh" "s,I" GLoadStore (mflags [MIPSM_LOAD; MIPSM_HW; MIPSM_UPPER; MIPSM_LOWER]);
  mkMacro "lhu" "s,I" GLoadStore (mflags [MIPSM_LOAD; MIPSM_HWU; MIPSM_UPPER; MIPSM_LOWER]);
  mkMacro "lw" "s,I" GLoadStore (mflags [MIPSM_LOAD; MIPSM_W; MIPSM_UPPER; MIPSM_LOWER]);
  mkMacro "lwu" "s,I" GLoadStore (mflags [MIPSM_LOAD; MIPSM_WU; MIPSM_UPPER; MIPSM_LOWER]);
  mkMacro "ld" "s,I" GLoadStore (mflags [MIPSM_LOAD; MIPSM_DW; MIPSM_UPPER; MIPSM_LOWER]);
  mkMacro "ll" "s,I" GLoadStore (mflags [MIPSM_LOAD; MIPSM_LLSCW; MIPSM_UPPER; MIPSM_LOWER]);
  mkMacro "lld" "s,I" GLoadStore (mflags [MIPSM_LOAD; MIPSM_LLSCDW; MIPSM_UPPER; MIPSM_LOWER]);
  mkMacro "lwc1" "S,I" GLoadStore (mflags [MIPSM_LOAD; MIPSM_COP1; MIPSM_UPPER; MIPSM_LOWER]);
  mkMacro "l.s" "S,I" GLoadStore (mflags [MIPSM_LOAD; MIPSM_COP1; MIPSM_UPPER; MIPSM_LOWER]);
  mkMacro "lwc2" "S,I" GLoadStore (mflags [MIPSM_LOAD; MIPSM_COP2; MIPSM_UPPER; MIPSM_LOWER]);
  mkMacro "ldc1" "S,I" GLoadStore (mflags [MIPSM_LOAD; MIPSM_DCOP1; MIPSM_UPPER; MIPSM_LOWER]);
  mkMacro "l.d" "S,I" GLoadStore (mflags [MIPSM_LOAD; MIPSM_DCOP1; MIPSM_UPPER; MIPSM_LOWER]);
  mkMacro "ldc2" "S,I" GLoadStore (mflags [MIPSM_LOAD; MIPSM_DCOP2; MIPSM_UPPER; MIPSM_LOWER]);
  mkMacro "lb.u" "s,I" GLoadStore (mflags [MIPSM_LOAD; MIPSM_B; MIPSM_UPPER]);
  mkMacro "lbu.u" "s,I" GLoadStore (mflags [MIPSM_LOAD; MIPSM_BU; MIPSM_UPPER]);
  mkMacro "lh.u" "s,I" GLoadStore (mflags [MIPSM_LOAD; MIPSM_HW; MIPSM_UPPER]);
  mkMacro "lhu.u" "s,I" GLoadStore (mflags [MIPSM_LOAD; MIPSM_HWU; MIPSM_UPPER]);
  mkMacro "lw.u" "s,I" GLoadStore (mflags [MIPSM_LOAD; MIPSM_W; MIPSM_UPPER]);
  mkMacro "lwu.u" "s,I" GLoadStore (mflags [MIPSM_LOAD; MIPSM_WU; MIPSM_UPPER]);
  mkMacro "ld.u" "s,I" GLoadStore (mflags [MIPSM_LOAD; MIPSM_DW; MIPSM_UPPER]);
  mkMacro "ll.u" "s,I" GLoadStore (mflags [MIPSM_LOAD; MIPSM_LLSCW; MIPSM_UPPER]);
  mkMacro "lld.u" "s,I" GLoadStore (mflags [MIPSM_LOAD; MIPSM_LLSCDW; MIPSM_UPPER]);
  mkMacro "lwc1.u" "S,I" GLoadStore (mflags [MIPSM_LOAD; MIPSM_COP1; MIPSM_UPPER]);
  mkMacro "l.s.u" "S,I" GLoadStore (mflags [MIPSM_LOAD; MIPSM_COP1; MIPSM_UPPER]);
  mkMacro "lwc2.u" "S,I" GLoadStore (mflags [MIPSM_LOAD; MIPSM_COP2; MIPSM_UPPER]);
  mkMacro "ldc1.u" "S,I" GLoadStore (mflags [MIPSM_LOAD; MIPSM_DCOP1; MIPSM_UPPER]);
  mkMacro "l.d.u" "S,I" GLoadStore (mflags [MIPSM_LOAD; MIPSM_DCOP1; MIPSM_UPPER]);
  mkMacro "ldc2.u" "S,I" GLoadStore (mflags [MIPSM_LOAD; MIPSM_DCOP2; MIPSM_UPPER]);
  mkMacro "lb.l" "s,I" GLoadStore (mflags [MIPSM_LOAD; MIPSM_B; MIPSM_LOWER]);
  mkMacro "lbu.l" "s,I" GLoadStore (mflags [MIPSM_LOAD; MIPSM_BU; MIPSM_LOWER]);
  mkMacro "lh.l" "s,I" GLoadStore (mflags [MIPSM_LOAD; MIPSM_HW; MIPSM_LOWER]);
  mkMacro "lhu.l" "s,I" GLoadStore (mflags [MIPSM_LOAD; MIPSM_HWU; MIPSM_LOWER]);
  mkMacro "lw.l" "s,I" GLoadStore (mflags [MIPSM_LOAD; MIPSM_W; MIPSM_LOWER]);
  mkMacro "lwu.l" "s,I" GLoadStore (mflags [MIPSM_LOAD; MIPSM_WU; MIPSM_LOWER]);
  mkMacro "ld.l" "s,I" GLoadStore (mflags [MIPSM_LOAD; MIPSM_DW; MIPSM_LOWER]);
  mkMacro "ll.l" "s,I" GLoadStore (mflags [MIPSM_LOAD; MIPSM_LLSCW; MIPSM_LOWER]);
  mkMacro "lld.l" "s,I" GLoadStore (mflags [MIPSM_LOAD; MIPSM_LLSCDW; MIPSM_LOWER]);
  mkMacro "lwc1.l" "S,I" GLoadStore (mflags [MIPSM_LOAD; MIPSM_COP1; MIPSM_LOWER]);
  mkMacro "l.s.l" "S,I" GLoadStore (mflags [MIPSM_LOAD; MIPSM_COP1; MIPSM_LOWER]);
  mkMacro "lwc2.l" "S,I" GLoadStore (mflags [MIPSM_LOAD; MIPSM_COP2; MIPSM_LOWER]);
  mkMacro "ldc1.l" "S,I" GLoadStore (mflags [MIPSM_LOAD; MIPSM_DCOP1; MIPSM_LOWER]);
  mkMacro "l.d.l" "S,I" GLoadStore (mflags [MIPSM_LOAD; MIPSM_DCOP1; MIPSM_LOWER]);
  mkMacro "ldc2.l" "S,I" GLoadStore (mflags [MIPSM_LOAD; MIPSM_DCOP2; MIPSM_LOWER]);
  mkMacro "ulh" "d,i(s)" GLoadUnaligned (mflags [MIPSM_HW; MIPSM_IMM]);
  mkMacro "ulh" "d,(s)" GLoadUnaligned (mflags [MIPSM_HW]);
  mkMacro "ulhu" "d,i(s)" GLoadUnaligned (mflags [MIPSM_HWU; MIPSM_IMM]);
  mkMacro "ulhu" "d,(s)" GLoadUnaligned (mflags [MIPSM_HWU]);
  mkMacro "ulw" "d,i(s)" GLoadUnaligned (mflags [MIPSM_W; MIPSM_IMM]);
  mkMacro "ulw" "d,(s)" GLoadUnaligned (mflags [MIPSM_W]);
  mkMacro "uld" "d,i(s)" GLoadUnaligned (mflags [MIPSM_DW; MIPSM_IMM]);
  mkMacro "uld" "d,(s)" GLoadUnaligned (mflags [MIPSM_DW]);
  mkMacro "sb" "s,I" GLoadStore (mflags [MIPSM_STORE; MIPSM_B; MIPSM_UPPER; MIPSM_LOWER]);
  mkMacro "sh" "s,I" GLoadStore (mflags [MIPSM_STORE; MIPSM_HW; MIPSM_UPPER; MIPSM_LOWER]);
  mkMacro "sw" "s,I" GLoadStore (mflags [MIPSM_STORE; MIPSM_W; MIPSM_UPPER; MIPSM_LOWER]);
  mkMacro "sd" "s,I" GLoadStore (mflags [MIPSM_STORE; MIPSM_DW; MIPSM_UPPER; MIPSM_LOWER]);
  mkMacro "sc" "s,I" GLoadStore (mflags [MIPSM_STORE; MIPSM_LLSCW; MIPSM_UPPER; MIPSM_LOWER]);
  mkMacro "scd" "s,I" GLoadStore (mflags [MIPSM_STORE; MIPSM_LLSCDW; MIPSM_UPPER; MIPSM_LOWER]);
  mkMacro "swc1" "S,I" GLoadStore (mflags [MIPSM_STORE; MIPSM_COP1; MIPSM_UPPER; MIPSM_LOWER]);
  mkMacro "s.s" "S,I" GLoadStore (mflags [MIPSM_STORE; MIPSM_COP1; MIPSM_UPPER; MIPSM_LOWER]);
  mkMacro "swc2" "S,I" GLoadStore (mflags [MIPSM_STORE; MIPSM_COP2; MIPSM_UPPER; MIPSM_LOWER]);
  mkMacro "sdc1" "S,I" GLoadStore (mflags [MIPSM_STORE; MIPSM_DCOP1; MIPSM_UPPER; MIPSM_LOWER]);
  mkMacro "s.d" "S,I" GLoadStore (mflags [MIPSM_STORE; MIPSM_DCOP1; MIPSM_UPPER; MIPSM_LOWER]);
  mkMacro "sdc2" "S,I" GLoadStore (mflags [MIPSM_STORE; MIPSM_DCOP2; MIPSM_UPPER; MIPSM_LOWER]);
  mkMacro "sb.u" "s,I" GLoadStore (mflags [MIPSM_STORE; MIPSM_B; MIPSM_UPPER]);
  mkMacro "sh.u" "s,I" GLoadStore (mflags [MIPSM_STORE; MIPSM_HW; MIPSM_UPPER]);
  mkMacro "sw.u" "s,I" GLoadStore (mflags [MIPSM_STORE; MIPSM_W; MIPSM_UPPER]);
  mkMacro "sd.u" "s,I" GLoadStore (mflags [MIPSM_STORE; MIPSM_DW; MIPSM_UPPER]);
  mkMacro "sc.u" "s,I" GLoadStore (mflags [MIPSM_STORE; MIPSM_LLSCW; MIPSM_UPPER]);
  mkMacro "scd.u" "s,I" GLoadStore (mflags [MIPSM_STORE; MIPSM_LLSCDW; MIPSM_UPPER]);
  mkMacro "swc1.u" "S,I" GLoadStore (mflags [MIPSM_STORE; MIPSM_COP1; MIPSM_UPPER]);
  mkMacro "s.s.u" "S,I" GLoadStore (mflags [MIPSM_STORE; MIPSM_COP1; MIPSM_UPPER]);
  mkMacro "swc2.u" "S,I" GLoadStore (mflags [MIPSM_STORE; MIPSM_COP2; MIPSM_UPPER]);
  mkMacro "sdc1.u" "S,I" GLoadStore (mflags [MIPSM_STORE; MIPSM_DCOP1; MIPSM_UPPER]);
  mkMacro "s.d.u" "S,I" GLoadStore (mflags [MIPSM_STORE; MIPSM_DCOP1; MIPSM_UPPER]);
  mkMacro "sdc2.u" "S,I" GLoadStore (mflags [MIPSM_STORE; MIPSM_DCOP2; MIPSM_UPPER]);
  mkMacro "sb.l" "s,I" GLoadStore (mflags [MIPSM_STORE; MIPSM_B; MIPSM_LOWER]);
  mkMacro "sh.l" "s,I" GLoadStore (mflags [MIPSM_STORE; MIPSM_HW; MIPSM_LOWER]);
  mkMacro "sw.l" "s,I" GLoadStore (mflags [MIPSM_STORE; MIPSM_W; MIPSM_LOWER]);
  mkMacro "sd.l" "s,I" GLoadStore (mflags [MIPSM_STORE; MIPSM_DW; MIPSM_LOWER]);
  mkMacro "sc.l" "s,I" GLoadStore (mflags [MIPSM_STORE; MIPSM_LLSCW; MIPSM_LOWER]);
  mkMacro "scd.l" "s,I" GLoadStore (mflags [MIPSM_STORE; MIPSM_LLSCDW; MIPSM_LOWER]);
  mkMacro "swc1.l" "S,I" GLoadStore (mflags [MIPSM_STORE; MIPSM_COP1; MIPSM_LOWER]);
  mkMacro "s.s.l" "S,I" GLoadStore (mflags [MIPSM_STORE; MIPSM_COP1; MIPSM_LOWER]);
  mkMacro "swc2.l" "S,I" GLoadStore (mflags [MIPSM_STORE; MIPSM_COP2; MIPSM_LOWER]);
  mkMacro "sdc1.l" "S,I" GLoadStore (mflags [MIPSM_STORE; MIPSM_DCOP1; MIPSM_LOWER]);
  mkMacro "s.d.l" "S,I" GLoadStore (mflags [MIPSM_STORE; MIPSM_DCOP1; MIPSM_LOWER]);
  mkMacro "sdc2.l" "S,I" GLoadStore (mflags [MIPSM_STORE; MIPSM_DCOP2; MIPSM_LOWER]);
  mkMacro "ush" "d,i(s)" GStoreUnaligned (mflags [MIPSM_HW; MIPSM_IMM]);
  mkMacro "ush" "d,(s)" GStoreUnaligned (mflags [MIPSM_HW]);
  mkMacro "usw" "d,i(s)" GStoreUnaligned (mflags [MIPSM_W; MIPSM_IMM]);
  mkMacro "usw" "d,(s)" GStoreUnaligned (mflags [MIPSM_W]);
  mkMacro "usd" "d,i(s)" GStoreUnaligned (mflags [MIPSM_DW; MIPSM_IMM]);
  mkMacro "usd" "d,(s)" GStoreUnaligned (mflags [MIPSM_DW]);
  mkMacro "blt" "s,t,I" GBranch (mflags [MIPSM_LT; MIPSM_DONTWARNDELAYSLOT]);
  mkMacro "blt" "s,i,I" GBranch (mflags [MIPSM_LT; MIPSM_IMM; MIPSM_DONTWARNDELAYSLOT]);
  mkMacro "bgt" "s,t,I" GBranch (mflags [MIPSM_LT; MIPSM_REVCMP; MIPSM_DONTWARNDELAYSLOT]);
  mkMacro "bgt" "s,i,I" GBranch (mflags [MIPSM_LT; MIPSM_IMM; MIPSM_REVCMP; MIPSM_DONTWARNDELAYSLOT]);
  mkMacro "bltu" "s,t,I" GBranch (mflags [MIPSM_LTU; MIPSM_DONTWARNDELAYSLOT]);
  mkMacro "bltu" "s,i,I" GBranch (mflags [MIPSM_LTU; MIPSM_IMM; MIPSM_DONTWARNDELAYSLOT]);
  mkMacro "bgtu" "s,t,I" GBranch (mflags [MIPSM_LTU; MIPSM_REVCMP; MIPSM_DONTWARNDELAYSLOT]);
  mkMacro "bgtu" "s,i,I" GBranch (mflags [MIPSM_LTU; MIPSM_IMM; MIPSM_REVCMP; MIPSM_DONTWARNDELAYSLOT]);
  mkMacro "bge" "s,t,I" GBranch (mflags [MIPSM_GE; MIPSM_DONTWARNDELAYSLOT]);
  mkMacro "bge" "s,i,I" GBranch (mflags [MIPSM_GE; MIPSM_IMM; MIPSM_DONTWARNDELAYSLOT]);
  mkMacro "ble" "s,t,I" GBranch (mflags [MIPSM_GE; MIPSM_REVCMP; MIPSM_DONTWARNDELAYSLOT]);
  mkMacro "ble" "s,i,I" GBranch (mflags [MIPSM_GE; MIPSM_IMM; MIPSM_REVCMP; MIPSM_DONTWARNDELAYSLOT]);
  mkMacro "bgeu" "s,t,I" GBranch (mflags [MIPSM_GEU; MIPSM_DONTWARNDELAYSLOT]);
  mkMacro "bgeu" "s,i,I" GBranch (mflags [MIPSM_GEU; MIPSM_IMM; MIPSM_DONTWARNDELAYSLOT]);
  mkMacro "bleu" "s,t,I" GBranch (mflags [MIPSM_GEU; MIPSM_REVCMP; MIPSM_DONTWARNDELAYSLOT]);
  mkMacro "bleu" "s,i,I" GBranch (mflags [MIPSM_GEU; MIPSM_IMM; MIPSM_REVCMP; MIPSM_DONTWARNDELAYSLOT]);
  mkMacro "bne" "s,i,I" GBranch (mflags [MIPSM_NE; MIPSM_IMM; MIPSM_DONTWARNDELAYSLOT]);
  mkMacro "beq" "s,i,I" GBranch (mflags [MIPSM_EQ; MIPSM_IMM; MIPSM_DONTWARNDELAYSLOT]);
  mkMacro "bltl" "s,t,I" GBranch (mflags [MIPSM_LT; MIPSM_DONTWARNDELAYSLOT; MIPSM_LIKELY]);
  mkMacro "bltl" "s,i,I" GBranch (mflags [MIPSM_LT; MIPSM_IMM; MIPSM_DONTWARNDELAYSLOT; MIPSM_LIKELY]);
  mkMacro "bgtl" "s,t,I" GBranch (mflags [MIPSM_LT; MIPSM_REVCMP; MIPSM_DONTWARNDELAYSLOT; MIPSM_LIKELY]);
  mkMacro "bgtl" "s,i,I" GBranch (mflags [MIPSM_LT; MIPSM_IMM; MIPSM_REVCMP; MIPSM_DONTWARNDELAYSLOT; MIPSM_LIKELY]);
  mkMacro "bltul" "s,t,I" GBranch (mflags [MIPSM_LTU; MIPSM_DONTWARNDELAYSLOT; MIPSM_LIKELY]);
  mkMacro "bltul" "s,i,I" GBranch (mflags [MIPSM_LTU; MIPSM_IMM; MIPSM_DONTWARNDELAYSLOT; MIPSM_LIKELY]);
  mkMacro "bgtul" "s,t,I" GBranch (mflags [MIPSM_LTU; MIPSM_REVCMP; MIPSM_DONTWARNDELAYSLOT; MIPSM_LIKELY]);
  mkMacro "bgtul" "s,i,I" GBranch (mflags [MIPSM_LTU; MIPSM_IMM; MIPSM_REVCMP; MIPSM_DONTWARNDELAYSLOT; MIPSM_LIKELY]);
  mkMacro "bgel" "s,t,I" GBranch (mflags [MIPSM_GE; MIPSM_DONTWARNDELAYSLOT; MIPSM_LIKELY]);
  mkMacro "bgel" "s,i,I" GBranch (mflags [MIPSM_GE; MIPSM_IMM; MIPSM_DONTWARNDELAYSLOT; MIPSM_LIKELY]);
  mkMacro "blel" "s,t,I" GBranch (mflags [MIPSM_GE; MIPSM_REVCMP; MIPSM_DONTWARNDELAYSLOT; MIPSM_LIKELY]);
  mkMacro "blel" "s,i,I" GBranch (mflags [MIPSM_GE; MIPSM_IMM; MIPSM_REVCMP; MIPSM_DONTWARNDELAYSLOT; MIPSM_LIKELY]);
  mkMacro "bgeul" "s,t,I" GBranch (mflags [MIPSM_GEU; MIPSM_DONTWARNDELAYSLOT; MIPSM_LIKELY]);
  mkMacro "bgeul" "s,i,I" GBranch (mflags [MIPSM_GEU; MIPSM_IMM; MIPSM_DONTWARNDELAYSLOT; MIPSM_LIKELY]);
  mkMacro "bleul" "s,t,I" GBranch (mflags [MIPSM_GEU; MIPSM_REVCMP; MIPSM_DONTWARNDELAYSLOT; MIPSM_LIKELY]);
  mkMacro "bleul" "s,i,I" GBranch (mflags [MIPSM_GEU; MIPSM_IMM; MIPSM_REVCMP; MIPSM_DONTWARNDELAYSLOT; MIPSM_LIKELY]);
  mkMacro "bnel" "s,i,I" GBranch (mflags [MIPSM_NE; MIPSM_IMM; MIPSM_DONTWARNDELAYSLOT; MIPSM_LIKELY]);
  mkMacro "beql" "s,i,I" GBranch (mflags [MIPSM_EQ; MIPSM_IMM; MIPSM_DONTWARNDELAYSLOT; MIPSM_LIKELY]);
  mkMacro "slt" "d,s,I" GSet (mflags [MIPSM_LT; MIPSM_IMM]);
  mkMacro "sltu" "d,s,I" GSet (mflags [MIPSM_LTU; MIPSM_IMM]);
  mkMacro "sgt" "d,s,I" GSet (mflags [MIPSM_LT; MIPSM_IMM; MIPSM_REVCMP]);
  mkMacro "sgtu" "d,s,I" GSet (mflags [MIPSM_LTU; MIPSM_IMM; MIPSM_REVCMP]);
  mkMacro "sge" "d,s,t" GSet (mflags [MIPSM_GE]);
  mkMacro "sge" "d,s,I" GSet (mflags [MIPSM_GE; MIPSM_IMM]);
  mkMacro "sle" "d,s,t" GSet (mflags [MIPSM_GE; MIPSM_REVCMP]);
  mkMacro "sle" "d,s,I" GSet (mflags [MIPSM_GE; MIPSM_IMM; MIPSM_REVCMP]);
  mkMacro "sgeu" "d,s,t" GSet (mflags [MIPSM_GEU]);
  mkMacro "sgeu" "d,s,I" GSet (mflags [MIPSM_GEU; MIPSM_IMM]);
  mkMacro "sleu" "d,s,t" GSet (mflags [MIPSM_GEU; MIPSM_REVCMP]);
  mkMacro "sleu" "d,s,I" GSet (mflags [MIPSM_GEU; MIPSM_IMM; MIPSM_REVCMP]);
  mkMacro "sne" "d,s,t" GSet (mflags [MIPSM_NE]);
  mkMacro "sne" "d,s,I" GSet (mflags [MIPSM_NE; MIPSM_IMM]);
  mkMacro "seq" "d,s,t" GSet (mflags [MIPSM_EQ]);
  mkMacro "seq" "d,s,I" GSet (mflags [MIPSM_EQ; MIPSM_IMM]);
  mkMacro "rol" "d,s,t" GRotate (mflags [MIPSM_LEFT]);
  mkMacro "rol" "d,s,i" GRotate (mflags [MIPSM_LEFT; MIPSM_IMM]);
  mkMacro "ror" "d,s,t" GRotate (mflags [MIPSM_RIGHT]);
  mkMacro "ror" "d,s,i" GRotate (mflags [MIPSM_RIGHT; MIPSM_IMM])].

(** A line: mnemonic and operands. *)
Definition mline : Type := string * list piece.

(** The operands of a macro: the members of MipsRegisterData and MipsImmediateData that
    parseMacroParameters sets. *)
Record margs := mkArgs { a_rt : piece; a_rd : piece; a_rs : piece; a_frs : piece; a_i : option mval; a_I : option mval }.
Definition no_args : margs := mkArgs (PSym ",") (PSym ",") (PSym ",") (PSym ",") None None.

(** The text a register has in the lines: MipsRegisterValue::name, MipsParser.cpp 225-269; a [$] in front
    of a name is dropped. *)
Definition reg_text (p : piece) : piece := match p with PName _ s v => PName false s v | _ => p end.

(** [MipsParser::parseMacroParameters]: MipsParser.cpp 1585-1624.  All operands have to be used. *)
Fixpoint parse_macro_args (enc : string) (ps : list piece) (a : margs) : option margs :=
  match enc with
  | EmptyString => match ps with [] => Some a | _ => None end
  | String c enc =>
    match ps with
    | [] => None
    | p :: r =>
      let general k := match parse_register RfGpr p with Some _ => parse_macro_args enc r (k (reg_text p)) | None => None end in
      let number k := match parse_immediate p with Some v => parse_macro_args enc r (k v) | None => None end in
      match c with
      | "t"%char => general (fun p => mkArgs p (a_rd a) (a_rs a) (a_frs a) (a_i a) (a_I a))
      | "d"%char => general (fun p => mkArgs (a_rt a) p (a_rs a) (a_frs a) (a_i a) (a_I a))
      | "s"%char => general (fun p => mkArgs (a_rt a) (a_rd a) p (a_frs a) (a_i a) (a_I a))
      | "S"%char => match parse_register RfFloat p with
                    | Some _ => parse_macro_args enc r (mkArgs (a_rt a) (a_rd a) (a_rs a) (reg_text p) (a_i a) (a_I a))
                    | None => None
                    end
      | "i"%char => number (fun v => mkArgs (a_rt a) (a_rd a) (a_rs a) (a_frs a) (Some v) (a_I a))
      | "I"%char => number (fun v => mkArgs (a_rt a) (a_rd a) (a_rs a) (a_frs a) (a_i a) (Some v))
      | c => match p with
             | PSym d => if Ascii.eqb c d then parse_macro_args enc r a else None
             | _ => None
             end
      end
    end
  end.

(** ** Lines *)

Definition rg (s : string) : piece := PName false s VBad.
Definition im (z : Z) : piece := PExpr (VInt z 0).
Fixpoint commas (l : list piece) : list piece :=
  match l with
  | [] => []
  | [x] => [x]
  | x :: r => x :: PSym "," :: commas r
  end.
(** [op a,b,...] and [op r,off(base)]. *)
Definition ln (op : string) (l : list piece) : mline := (op, commas l).
Definition lmem (op : string) (r : piece) (off : Z) (base : piece) : mline :=
  (op, [r; PSym ","; im off; PSym "("; base; PSym ")"]).
(** The value of an immediate; without one there is a gap in the text, which is rejected. *)
Definition with_int (v : option mval) (k : Z -> res (list mline)) : res (list mline) :=
  match v with Some (VInt z _) => k z | _ => RErr end.
(** hi() and lo(): MipsExpressionFunctions.cpp 10-26. *)
Definition hi_of (z : Z) : Z := Z.land (z / 2 ^ 16 + (if Z.land z 0x8000 =? 0 then 0 else 1)) 0xFFFF.
Definition lo_of (z : Z) : Z := s16 (Z.land z 0xFFFF).

(** [generateMipsMacroAbs]: MipsMacros.cpp 71-95. *)
Definition generate_abs (flags : Z) (a : margs) : res (list mline) :=
  let lines sraop subop :=
    ROk [ln sraop [rg "r1"; a_rs a; im 31]; ln "xor" [a_rd a; a_rs a; rg "r1"]; ln subop [a_rd a; a_rd a; rg "r1"]] in
  if Z.land flags MIPSM_ACCESSMASK =? MIPSM_W then lines "sra" "subu"
  else if Z.land flags MIPSM_ACCESSMASK =? MIPSM_DW then lines "dsra32" "dsubu"
  else RErr.

(** [generateMipsMacroLi]: MipsMacros.cpp 111-160.  abs() of the smallest 64-bit number has no value. *)
Definition generate_li (flags : Z) (a : margs) : res (list mline) :=
  with_int (a_I a) (fun z =>
    let upper := has flags MIPSM_UPPER in
    let lower := has flags MIPSM_LOWER in
    if z =? - 2 ^ 63 then RUb
    else if 0xFFFFFFFF <? Z.abs z then RErr
    else if negb (Z.land z (Z.lnot 0xFFFF) =? 0) then
      if Z.land z 0xFFFF8000 =? 0xFFFF8000 then
        ROk (if lower then [ln "addiu" [a_rs a; rg "r0"; im (lo_of z)]] else [])
      else if Z.land z 0xFFFF =? 0 then
        ROk (if upper then [ln "lui" [a_rs a; im (hi_of z)]] else if lower then [ln "nop" []] else [])
      else
        ROk ((if upper then [ln "lui" [a_rs a; im (hi_of z)]] else []) ++
             (if lower then [ln "addiu" [a_rs a; im (lo_of z)]] else []))
    else ROk (if lower then [ln "ori" [a_rs a; rg "r0"; im z]] else [])).

(** The instruction of a load or store macro, and whether its register is one of a coprocessor:
    MipsMacros.cpp 181-207. *)
Definition access_op (flags : Z) : option (string * bool) :=
  let t := Z.land flags MIPSM_ACCESSMASK in
  let pick l := find (fun x => fst x =? t) l in
  match pick (if Z.land flags (Z.lor MIPSM_LOAD MIPSM_STORE) =? MIPSM_LOAD then
                [(MIPSM_B, ("lb", false)); (MIPSM_BU, ("lbu", false)); (MIPSM_HW, ("lh", false)); (MIPSM_HWU, ("lhu", false));
                 (MIPSM_W, ("lw", false)); (MIPSM_WU, ("lwu", false)); (MIPSM_DW, ("ld", false)); (MIPSM_LLSCW, ("ll", false));
                 (MIPSM_LLSCDW, ("lld", false)); (MIPSM_COP1, ("lwc1", true)); (MIPSM_COP2, ("lwc2", true));
                 (MIPSM_DCOP1, ("ldc1", true)); (MIPSM_DCOP2, ("ldc2", true))]
              else if Z.land flags (Z.lor MIPSM_LOAD MIPSM_STORE) =? MIPSM_STORE then
                [(MIPSM_B, ("sb", false)); (MIPSM_HW, ("sh", false)); (MIPSM_W, ("sw", false)); (MIPSM_DW, ("sd", false));
                 (MIPSM_LLSCW, ("sc", false)); (MIPSM_LLSCDW, ("scd", false)); (MIPSM_COP1, ("swc1", true));
                 (MIPSM_COP2, ("swc2", true)); (MIPSM_DCOP1, ("sdc1", true)); (MIPSM_DCOP2, ("sdc2", true))]
              else []) with
  | Some x => Some (snd x)
  | None => None
  end.
(** [generateMipsMacroLoadStore]: MipsMacros.cpp 162-224. *)
Definition generate_load_store (flags : Z) (a : margs) : res (list mline) :=
  match access_op flags with
  | None => RErr
  | Some (op, cop) =>
    with_int (a_I a) (fun z =>
      let upper := has flags MIPSM_UPPER in
      let lower := has flags MIPSM_LOWER in
      let rs := if cop then a_frs a else a_rs a in
      let temp := if cop || has flags MIPSM_STORE then rg "r1" else a_rs a in
      if negb (Z.land z (Z.lnot 0xFFFFFFFF) =? 0) then RErr
      else if (z <? 0x8000) || (Z.land z 0xFFFF8000 =? 0xFFFF8000) then
        ROk (if lower then [lmem op rs (lo_of z) (rg "r0")] else if upper then [ln "nop" []] else [])
      else
        ROk ((if upper then [ln "lui" [temp; im (hi_of z)]] else []) ++
             (if lower then [lmem op rs (lo_of z) temp] else [])))
  end.

Definition same_register (p q : piece) : bool :=
  match parse_register RfGpr p, parse_register RfGpr q with Some x, Some y => x =? y | _, _ => false end.
(** [generateMipsMacroLoadUnaligned]: MipsMacros.cpp 226-279.  Sums are those of 64-bit integers. *)
Definition generate_load_unaligned (flags : Z) (a : margs) : res (list mline) :=
  let t := Z.land flags MIPSM_ACCESSMASK in
  if (t =? MIPSM_HW) || (t =? MIPSM_HWU) then
    let op := if t =? MIPSM_HWU then "lbu" else "lb" in
    with_int (a_i a) (fun off =>
      if (off <? 0x8000) && (0x8000 <=? s64 (off + 1)) then RErr
      else ROk [lmem op (rg "r1") (s64 (off + 1)) (a_rs a); lmem op (a_rd a) off (a_rs a);
                ln "sll" [rg "r1"; im 8]; ln "or" [a_rd a; rg "r1"]])
  else if (t =? MIPSM_W) || (t =? MIPSM_DW) then
    if same_register (a_rs a) (a_rd a) then RErr
    else
      let op := if t =? MIPSM_W then "lw" else "ld" in
      let size := if t =? MIPSM_W then 4 else 8 in
      with_int (a_i a) (fun off =>
        if (off <? 0x8000) && (0x8000 <=? s64 (s64 (off + size) - 1)) then RErr
        else ROk [lmem (op ++ "l")%string (a_rd a) (s64 (s64 (off + size) - 1)) (a_rs a);
                  lmem (op ++ "r")%string (a_rd a) off (a_rs a)])
  else RErr.
(** [generateMipsMacroStoreUnaligned]: MipsMacros.cpp 281-332. *)
Definition generate_store_unaligned (flags : Z) (a : margs) : res (list mline) :=
  let t := Z.land flags MIPSM_ACCESSMASK in
  if t =? MIPSM_HW then
    with_int (a_i a) (fun off =>
      if (off <? 0x8000) && (0x8000 <=? s64 (off + 1)) then RErr
      else ROk [lmem "sb" (a_rd a) off (a_rs a); ln "srl" [rg "r1"; a_rd a; im 8];
                lmem "sb" (rg "r1") (s64 (off + 1)) (a_rs a)])
  else if (t =? MIPSM_W) || (t =? MIPSM_DW) then
    if same_register (a_rs a) (a_rd a) then RErr
    else
      let op := if t =? MIPSM_W then "sw" else "sd" in
      let size := if t =? MIPSM_W then 4 else 8 in
      with_int (a_i a) (fun off =>
        if (off <? 0x8000) && (0x8000 <=? s64 (s64 (off + size) - 1)) then RErr
        else ROk [lmem (op ++ "l")%string (a_rd a) (s64 (s64 (off + size) - 1)) (a_rs a);
                  lmem (op ++ "r")%string (a_rd a) off (a_rs a)])
  else RErr.

(** [generateMipsMacroBranch]: MipsMacros.cpp 334-418.  The target is an expression of any kind. *)
Definition generate_branch (flags : Z) (a : margs) : res (list mline) :=
  let t := Z.land flags MIPSM_CONDITIONMASK in
  let bne := t =? MIPSM_NE in
  let beq := t =? MIPSM_EQ in
  let beqz := (t =? MIPSM_GE) || (t =? MIPSM_GEU) in
  let bnez := (t =? MIPSM_LT) || (t =? MIPSM_LTU) in
  let unsigned := (t =? MIPSM_GEU) || (t =? MIPSM_LTU) in
  let u s := if unsigned then (s ++ "u")%string else s in
  let likely s := if has flags MIPSM_LIKELY then (s ++ "l")%string else s in
  let revcmp := has flags MIPSM_REVCMP in
  match a_I a with
  | None => RErr
  | Some d =>
    let dest := PExpr d in
    if bne || beq then
      let op := likely (if bne then "bne" else "beq") in
      with_int (a_i a) (fun z =>
        if z =? 0 then ROk [ln op [a_rs a; rg "r0"; dest]]
        else ROk [ln "li" [rg "r1"; im z]; ln op [a_rs a; rg "r1"; dest]])
    else if beqz || bnez then
      let op := likely (if bnez then "bnez" else "beqz") in
      if has flags MIPSM_IMM then
        with_int (a_i a) (fun z =>
          ROk ((if revcmp && (z =? 0) then [ln (u "slt") [rg "r1"; rg "r0"; a_rs a]]
                else if revcmp then [ln "li" [rg "r1"; im z]; ln (u "slt") [rg "r1"; rg "r1"; a_rs a]]
                else if (z <? - 0x8000) || (0x8000 <=? z) then [ln "li" [rg "r1"; im z]; ln (u "slt") [rg "r1"; a_rs a; rg "r1"]]
                else [ln (u "slti") [rg "r1"; a_rs a; im z]]) ++
               [ln op [rg "r1"; dest]]))
      else
        ROk [if revcmp then ln (u "slt") [rg "r1"; a_rt a; a_rs a] else ln (u "slt") [rg "r1"; a_rs a; a_rt a];
             ln op [rg "r1"; dest]]
    else RErr
  end.

(** [generateMipsMacroSet]: MipsMacros.cpp 420-511. *)
Definition generate_set (flags : Z) (a : margs) : res (list mline) :=
  let t := Z.land flags MIPSM_CONDITIONMASK in
  let ne := t =? MIPSM_NE in
  let eq := t =? MIPSM_EQ in
  let ge := (t =? MIPSM_GE) || (t =? MIPSM_GEU) in
  let lt := (t =? MIPSM_LT) || (t =? MIPSM_LTU) in
  let unsigned := (t =? MIPSM_GEU) || (t =? MIPSM_LTU) in
  let u s := if unsigned then (s ++ "u")%string else s in
  let immediate := has flags MIPSM_IMM in
  let revcmp := has flags MIPSM_REVCMP in
  let rd := a_rd a in
  let rs := a_rs a in
  let finish := if eq then [ln "sltiu" [rd; rd; im 1]] else [ln "sltu" [rd; rg "r0"; rd]] in
  if immediate && (ne || eq) then
    with_int (a_I a) (fun z =>
      ROk ((if negb (Z.land z (Z.lnot 0xFFFF) =? 0) then [ln "li" [rd; im z]; ln "xor" [rd; rs; rd]]
            else [ln "xori" [rd; rs; im z]]) ++ finish))
  else if ne || eq then ROk (ln "xor" [rd; rs; a_rt a] :: finish)
  else if immediate && (ge || lt) then
    with_int (a_I a) (fun z =>
      ROk ((if revcmp && (z =? 0) then [ln (u "slt") [rd; rg "r0"; rs]]
            else if revcmp then [ln "li" [rd; im z]; ln (u "slt") [rd; rd; rs]]
            else if (z <? - 0x8000) || (0x8000 <=? z) then [ln "li" [rd; im z]; ln (u "slt") [rd; rs; rd]]
            else [ln (u "slti") [rd; rs; im z]]) ++
           (if ge then [ln "xori" [rd; rd; im 1]] else [])))
  else if ge then
    ROk [if revcmp then ln (u "slt") [rd; a_rt a; rs] else ln (u "slt") [rd; rs; a_rt a]; ln "xori" [rd; rd; im 1]]
  else RErr.

(** [generateMipsMacroRotate]: MipsMacros.cpp 513-589.  The text [-%amount%&31] of a negative number has
    two signs and is rejected by the program; the model accepts it. *)
Definition generate_rotate (arch : mips_arch) (flags : Z) (a : margs) : res (list mline) :=
  let left := has flags MIPSM_LEFT in
  let immediate := has flags MIPSM_IMM in
  let psp := match arch with PSP => true | _ => false end in
  let rd := a_rd a in
  let rs := a_rs a in
  let rt := a_rt a in
  if immediate then
    with_int (a_i a) (fun z =>
      let back := im (Z.land (s64 (- z)) 31) in
      if negb (z =? 0) then
        if psp then ROk [if left then ln "rotr" [rd; rs; back] else ln "rotr" [rd; rs; im z]]
        else if left then ROk [ln "srl" [rg "r1"; rs; back]; ln "sll" [rd; rs; im z]; ln "or" [rd; rd; rg "r1"]]
        else ROk [ln "sll" [rg "r1"; rs; back]; ln "srl" [rd; rs; im z]; ln "or" [rd; rd; rg "r1"]]
      else ROk [ln "move" [rd; rs]])
  else if psp then
    if left then ROk [ln "negu" [rg "r1"; rt]; ln "rotrv" [rd; rs; rg "r1"]] else ROk [ln "rotrv" [rd; rs; rt]]
  else if left then
    ROk [ln "negu" [rg "r1"; rt]; ln "srlv" [rg "r1"; rs; rg "r1"]; ln "sllv" [rd; rs; rt]; ln "or" [rd; rd; rg "r1"]]
  else
    ROk [ln "negu" [rg "r1"; rt]; ln "sllv" [rg "r1"; rs; rg "r1"]; ln "srlv" [rd; rs; rt]; ln "or" [rd; rd; rg "r1"]].

(** [generateMipsMacroLiFloat] (MipsMacros.cpp 97-109) is not modelled. *)
Definition generate (arch : mips_arch) (m : macro) (a : margs) : res (list mline) :=
  let f := k_flags m in
  match k_gen m with
  | GAbs => generate_abs f a
  | GLiFloat => RErr
  | GLi => generate_li f a
  | GLoadStore => generate_load_store f a
  | GLoadUnaligned => generate_load_unaligned f a
  | GStoreUnaligned => generate_store_unaligned f a
  | GBranch => generate_branch f a
  | GSet => generate_set f a
  | GRotate => generate_rotate arch f a
  end.

(** [MipsParser::parseMacro]: MipsParser.cpp 1626-1656: the first macro with this name whose operands
    fit. *)
Fixpoint find_macro (l : list macro) (name : string) (ps : list piece) : option (macro * margs) :=
  match l with
  | [] => None
  | m :: l =>
    if String.eqb (k_name m) name then
      match parse_macro_args (k_args m) ps no_args with
      | Some a => Some (m, a)
      | None => find_macro l name ps
      end
    else find_macro l name ps
  end.

(** CMipsArchitecture::parseOpcode, Mips.cpp 25-34, until no line is a macro.  [fuel] bounds the nesting of
    macros; the theorems hold for every bound. *)
Fixpoint expand (fuel : nat) (arch : mips_arch) (l : mline) : res (list mline) :=
  match find_macro mipsMacros (fst l) (snd l) with
  | None => ROk [l]
  | Some (m, a) =>
    match fuel with
    | O => RErr
    | S fuel =>
      do ls <- generate arch m a;
      (fix each (ls : list mline) : res (list mline) :=
         match ls with
         | [] => ROk []
         | l :: ls => do x <- expand fuel arch l; do y <- each ls; ROk (x ++ y)
         end) ls
    end
  end.

(** Lines one after the other: CommandSequence, Commands/CommandSequence.cpp. *)
Fixpoint assemble_lines (s : mips_state) (ignore : bool) (pc : Z) (ls : list mline) : res mips_out :=
  match ls with
  | [] => ROk (mkOut [] s false)
  | l :: ls =>
    do x <- mips_assemble s ignore pc (fst l) (snd l);
    do y <- assemble_lines (x_state x) ignore (pc + 4 * Z.of_nat (List.length (x_words x))) ls;
    ROk (mkOut (x_words x ++ x_words y) (x_state y) (x_warn x || x_warn y))
  end.

(** A line of source text: a macro, or an instruction. *)
Definition mips_line (depth : nat) (s : mips_state) (ignore : bool) (pc : Z) (name : string) (ps : list piece) : res mips_out :=
  do ls <- expand depth (ms_arch s) (name, ps);
  assemble_lines s ignore pc ls.
