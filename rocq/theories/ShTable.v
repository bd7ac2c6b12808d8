(** The SuperH opcode table, row by row.

    Files: Archs/SuperH/ShOpcodes.h 5-58, Archs/SuperH/ShOpcodes.cpp 3-198. *)

Require Import ZArith List String.
Import ListNotations.
Local Open Scope string_scope.
Local Open Scope Z_scope.

(** The instruction sets: ShOpcodes.h 5-6. *)
Definition SH_SUPERH1 := 1.
Definition SH_SUPERH2 := 2.

(** The flags: ShOpcodes.h 8-14. *)
Definition SH_IMM16 := 0x1.
Definition SH_IMM32 := 0x2.
Definition SH_IMMREL := 0x4.
Definition SH_FREG := 0x8.
Definition SH_IMMSIGNED := 0x10.
Definition SH_DELAYED := 0x20.
Definition SH_PCRELMANUAL := 0x40.
Definition flags (l : list Z) : Z := fold_right Z.lor 0 l.

(** ShInstructionFormat: ShOpcodes.h 18-40. *)
Inductive sh_format :=
| SHFMT_0 | SHFMT_N | SHFMT_M | SHFMT_NM | SHFMT_MD | SHFMT_ND4 | SHFMT_NMD | SHFMT_D | SHFMT_D12 | SHFMT_ND8 | SHFMT_I | SHFMT_NI.

(** tShOpcode: ShOpcodes.h 51-59. *)
Record sh_opcode := mkShOp {
  sh_name : string; sh_encoding : string; sh_base : Z; sh_fmt : sh_format; sh_archs : Z; sh_flags : Z }.

(** shOpcodes: ShOpcodes.cpp 3-198. *)
Definition shOpcodes : list sh_opcode := [
  mkShOp "mov" "#i8,t" 0xE000 SHFMT_NI SH_SUPERH1 (flags []);
  mkShOp "mov" "i8,t" 0xE000 SHFMT_NI SH_SUPERH1 (flags []);
  mkShOp "mov.w" "i8,t" 0x9000 SHFMT_ND8 SH_SUPERH1 (flags [SH_IMM16; SH_IMMREL]);
  mkShOp "mov.l" "i8,t" 0xD000 SHFMT_ND8 SH_SUPERH1 (flags [SH_IMM32; SH_IMMREL]);
  mkShOp "mov.w" "@(i8,pc),t" 0x9000 SHFMT_ND8 SH_SUPERH1 (flags [SH_FREG; SH_IMM16; SH_PCRELMANUAL]);
  mkShOp "mov.l" "@(i8,pc),t" 0xD000 SHFMT_ND8 SH_SUPERH1 (flags [SH_FREG; SH_IMM32; SH_PCRELMANUAL]);
  mkShOp "mov" "s,t" 0x6003 SHFMT_NM SH_SUPERH1 (flags []);
  mkShOp "mov.b" "s,@t" 0x2000 SHFMT_NM SH_SUPERH1 (flags []);
  mkShOp "mov.w" "s,@t" 0x2001 SHFMT_NM SH_SUPERH1 (flags []);
  mkShOp "mov.l" "s,@t" 0x2002 SHFMT_NM SH_SUPERH1 (flags []);
  mkShOp "mov.b" "@s,t" 0x6000 SHFMT_NM SH_SUPERH1 (flags []);
  mkShOp "mov.w" "@s,t" 0x6001 SHFMT_NM SH_SUPERH1 (flags []);
  mkShOp "mov.l" "@s,t" 0x6002 SHFMT_NM SH_SUPERH1 (flags []);
  mkShOp "mov.b" "s,@-t" 0x2004 SHFMT_NM SH_SUPERH1 (flags []);
  mkShOp "mov.w" "s,@-t" 0x2005 SHFMT_NM SH_SUPERH1 (flags []);
  mkShOp "mov.l" "s,@-t" 0x2006 SHFMT_NM SH_SUPERH1 (flags []);
  mkShOp "mov.b" "@s+,t" 0x6004 SHFMT_NM SH_SUPERH1 (flags []);
  mkShOp "mov.w" "@s+,t" 0x6005 SHFMT_NM SH_SUPERH1 (flags []);
  mkShOp "mov.l" "@s+,t" 0x6006 SHFMT_NM SH_SUPERH1 (flags []);
  mkShOp "mov.b" "r0,@(i4,t)" 0x8000 SHFMT_ND4 SH_SUPERH1 (flags [SH_FREG]);
  mkShOp "mov.w" "r0,@(i4,t)" 0x8100 SHFMT_ND4 SH_SUPERH1 (flags [SH_IMM16; SH_FREG]);
  mkShOp "mov.l" "s,@(i4,t)" 0x1000 SHFMT_NMD SH_SUPERH1 (flags [SH_IMM32; SH_FREG]);
  mkShOp "mov.b" "@(i4,t),r0" 0x8400 SHFMT_ND4 SH_SUPERH1 (flags [SH_FREG]);
  mkShOp "mov.w" "@(i4,t),r0" 0x8500 SHFMT_ND4 SH_SUPERH1 (flags [SH_IMM16; SH_FREG]);
  mkShOp "mov.l" "@(i4,s),t" 0x5000 SHFMT_NMD SH_SUPERH1 (flags [SH_IMM32; SH_FREG]);
  mkShOp "mov.b" "s,@(r0,t)" 0x0004 SHFMT_NM SH_SUPERH1 (flags [SH_FREG]);
  mkShOp "mov.w" "s,@(r0,t)" 0x0005 SHFMT_NM SH_SUPERH1 (flags [SH_FREG]);
  mkShOp "mov.l" "s,@(r0,t)" 0x0006 SHFMT_NM SH_SUPERH1 (flags [SH_FREG]);
  mkShOp "mov.b" "@(r0,s),t" 0x000C SHFMT_NM SH_SUPERH1 (flags [SH_FREG]);
  mkShOp "mov.w" "@(r0,s),t" 0x000D SHFMT_NM SH_SUPERH1 (flags [SH_FREG]);
  mkShOp "mov.l" "@(r0,s),t" 0x000E SHFMT_NM SH_SUPERH1 (flags [SH_FREG]);
  mkShOp "mov.b" "r0,@(i8,gbr)" 0xC000 SHFMT_D SH_SUPERH1 (flags [SH_FREG]);
  mkShOp "mov.w" "r0,@(i8,gbr)" 0xC100 SHFMT_D SH_SUPERH1 (flags [SH_IMM16; SH_FREG]);
  mkShOp "mov.l" "r0,@(i8,gbr)" 0xC200 SHFMT_D SH_SUPERH1 (flags [SH_IMM32; SH_FREG]);
  mkShOp "mov.b" "@(i8,gbr),r0" 0xC400 SHFMT_D SH_SUPERH1 (flags [SH_FREG]);
  mkShOp "mov.w" "@(i8,gbr),r0" 0xC500 SHFMT_D SH_SUPERH1 (flags [SH_IMM16; SH_FREG]);
  mkShOp "mov.l" "@(i8,gbr),r0" 0xC600 SHFMT_D SH_SUPERH1 (flags [SH_IMM32; SH_FREG]);
  mkShOp "mova" "i8,r0" 0xC700 SHFMT_D SH_SUPERH1 (flags [SH_IMM32; SH_FREG; SH_IMMREL]);
  mkShOp "mova" "@(i8,pc),r0" 0xC700 SHFMT_D SH_SUPERH1 (flags [SH_IMM32; SH_FREG; SH_PCRELMANUAL]);
  mkShOp "movt" "t" 0x0029 SHFMT_N SH_SUPERH1 (flags []);
  mkShOp "swap.b" "s,t" 0x6008 SHFMT_NM SH_SUPERH1 (flags []);
  mkShOp "swap.w" "s,t" 0x6009 SHFMT_NM SH_SUPERH1 (flags []);
  mkShOp "xtrct" "s,t" 0x200D SHFMT_NM SH_SUPERH1 (flags []);
  mkShOp "add" "s,t" 0x300C SHFMT_NM SH_SUPERH1 (flags []);
  mkShOp "add" "#i8,t" 0x7000 SHFMT_NI SH_SUPERH1 (flags []);
  mkShOp "add" "i8,t" 0x7000 SHFMT_NI SH_SUPERH1 (flags []);
  mkShOp "addc" "s,t" 0x300E SHFMT_NM SH_SUPERH1 (flags []);
  mkShOp "addv" "s,t" 0x300F SHFMT_NM SH_SUPERH1 (flags []);
  mkShOp "cmp/eq" "#i8,r0" 0x8800 SHFMT_I SH_SUPERH1 (flags [SH_FREG]);
  mkShOp "cmp/eq" "i8,r0" 0x8800 SHFMT_I SH_SUPERH1 (flags [SH_FREG]);
  mkShOp "cmp/eq" "s,t" 0x3000 SHFMT_NM SH_SUPERH1 (flags []);
  mkShOp "cmp/hs" "s,t" 0x3002 SHFMT_NM SH_SUPERH1 (flags []);
  mkShOp "cmp/ge" "s,t" 0x3003 SHFMT_NM SH_SUPERH1 (flags []);
  mkShOp "cmp/hi" "s,t" 0x3006 SHFMT_NM SH_SUPERH1 (flags []);
  mkShOp "cmp/gt" "s,t" 0x3007 SHFMT_NM SH_SUPERH1 (flags []);
  mkShOp "cmp/pl" "t" 0x4015 SHFMT_N SH_SUPERH1 (flags []);
  mkShOp "cmp/pz" "t" 0x4011 SHFMT_N SH_SUPERH1 (flags []);
  mkShOp "cmp/str" "s,t" 0x200C SHFMT_NM SH_SUPERH1 (flags []);
  mkShOp "div1" "s,t" 0x3004 SHFMT_NM SH_SUPERH1 (flags []);
  mkShOp "div0s" "s,t" 0x2007 SHFMT_NM SH_SUPERH1 (flags []);
  mkShOp "div0u" "" 0x0019 SHFMT_0 SH_SUPERH1 (flags []);
  mkShOp "dmuls.l" "s,t" 0x300D SHFMT_NM SH_SUPERH2 (flags []);
  mkShOp "dmulu.l" "s,t" 0x3005 SHFMT_NM SH_SUPERH2 (flags []);
  mkShOp "dt" "t" 0x4010 SHFMT_N SH_SUPERH2 (flags []);
  mkShOp "exts.b" "s,t" 0x600E SHFMT_NM SH_SUPERH1 (flags []);
  mkShOp "exts.w" "s,t" 0x600F SHFMT_NM SH_SUPERH1 (flags []);
  mkShOp "extu.b" "s,t" 0x600C SHFMT_NM SH_SUPERH1 (flags []);
  mkShOp "extu.w" "s,t" 0x600D SHFMT_NM SH_SUPERH1 (flags []);
  mkShOp "mac.l" "@s+,@t+" 0x000F SHFMT_NM SH_SUPERH2 (flags []);
  mkShOp "mac.w" "@s+,@t+" 0x400F SHFMT_NM SH_SUPERH1 (flags []);
  mkShOp "mul.l" "s,t" 0x0007 SHFMT_NM SH_SUPERH2 (flags []);
  mkShOp "muls.w" "s,t" 0x200F SHFMT_NM SH_SUPERH1 (flags []);
  mkShOp "mulu.w" "s,t" 0x200E SHFMT_NM SH_SUPERH1 (flags []);
  mkShOp "neg" "s,t" 0x600B SHFMT_NM SH_SUPERH1 (flags []);
  mkShOp "negc" "s,t" 0x600A SHFMT_NM SH_SUPERH1 (flags []);
  mkShOp "sub" "s,t" 0x3008 SHFMT_NM SH_SUPERH1 (flags []);
  mkShOp "subc" "s,t" 0x300A SHFMT_NM SH_SUPERH1 (flags []);
  mkShOp "subv" "s,t" 0x300B SHFMT_NM SH_SUPERH1 (flags []);
  mkShOp "and" "s,t" 0x2009 SHFMT_NM SH_SUPERH1 (flags []);
  mkShOp "and" "#i8,r0" 0xC900 SHFMT_I SH_SUPERH1 (flags [SH_FREG]);
  mkShOp "and.b" "#i8,@(r0,gbr)" 0xCD00 SHFMT_I SH_SUPERH1 (flags [SH_FREG]);
  mkShOp "and" "i8,r0" 0xC900 SHFMT_I SH_SUPERH1 (flags [SH_FREG]);
  mkShOp "and.b" "i8,@(r0,gbr)" 0xCD00 SHFMT_I SH_SUPERH1 (flags [SH_FREG]);
  mkShOp "not" "s,t" 0x6007 SHFMT_NM SH_SUPERH1 (flags []);
  mkShOp "or" "s,t" 0x200B SHFMT_NM SH_SUPERH1 (flags []);
  mkShOp "or" "#i8,r0" 0xCB00 SHFMT_I SH_SUPERH1 (flags [SH_FREG]);
  mkShOp "or.b" "#i8,@(r0,gbr)" 0xCF00 SHFMT_I SH_SUPERH1 (flags [SH_FREG]);
  mkShOp "or" "i8,r0" 0xCB00 SHFMT_I SH_SUPERH1 (flags [SH_FREG]);
  mkShOp "or.b" "i8,@(r0,gbr)" 0xCF00 SHFMT_I SH_SUPERH1 (flags [SH_FREG]);
  mkShOp "tas.b" "@t" 0x401B SHFMT_N SH_SUPERH1 (flags []);
  mkShOp "tst" "s,t" 0x2008 SHFMT_NM SH_SUPERH1 (flags []);
  mkShOp "tst" "#i8,r0" 0xC800 SHFMT_I SH_SUPERH1 (flags [SH_FREG]);
  mkShOp "tst.b" "#i8,@(r0,gbr)" 0xCC00 SHFMT_I SH_SUPERH1 (flags [SH_FREG]);
  mkShOp "tst" "i8,r0" 0xC800 SHFMT_I SH_SUPERH1 (flags [SH_FREG]);
  mkShOp "tst.b" "i8,@(r0,gbr)" 0xCC00 SHFMT_I SH_SUPERH1 (flags [SH_FREG]);
  mkShOp "xor" "s,t" 0x200A SHFMT_NM SH_SUPERH1 (flags []);
  mkShOp "xor" "#i8,r0" 0xCA00 SHFMT_I SH_SUPERH1 (flags [SH_FREG]);
  mkShOp "xor.b" "#i8,@(r0,gbr)" 0xCE00 SHFMT_I SH_SUPERH1 (flags [SH_FREG]);
  mkShOp "xor" "i8,r0" 0xCA00 SHFMT_I SH_SUPERH1 (flags [SH_FREG]);
  mkShOp "xor.b" "i8,@(r0,gbr)" 0xCE00 SHFMT_I SH_SUPERH1 (flags [SH_FREG]);
  mkShOp "rotl" "t" 0x4004 SHFMT_N SH_SUPERH1 (flags []);
  mkShOp "rotr" "t" 0x4005 SHFMT_N SH_SUPERH1 (flags []);
  mkShOp "rotcl" "t" 0x4024 SHFMT_N SH_SUPERH1 (flags []);
  mkShOp "rotcr" "t" 0x4025 SHFMT_N SH_SUPERH1 (flags []);
  mkShOp "shal" "t" 0x4020 SHFMT_N SH_SUPERH1 (flags []);
  mkShOp "shar" "t" 0x4021 SHFMT_N SH_SUPERH1 (flags []);
  mkShOp "shll" "t" 0x4000 SHFMT_N SH_SUPERH1 (flags []);
  mkShOp "shlr" "t" 0x4001 SHFMT_N SH_SUPERH1 (flags []);
  mkShOp "shll2" "t" 0x4008 SHFMT_N SH_SUPERH1 (flags []);
  mkShOp "shlr2" "t" 0x4009 SHFMT_N SH_SUPERH1 (flags []);
  mkShOp "shll8" "t" 0x4018 SHFMT_N SH_SUPERH1 (flags []);
  mkShOp "shlr8" "t" 0x4019 SHFMT_N SH_SUPERH1 (flags []);
  mkShOp "shll16" "t" 0x4028 SHFMT_N SH_SUPERH1 (flags []);
  mkShOp "shlr16" "t" 0x4029 SHFMT_N SH_SUPERH1 (flags []);
  mkShOp "bf" "i8" 0x8B00 SHFMT_D SH_SUPERH1 (flags [SH_IMM16; SH_IMMREL; SH_IMMSIGNED]);
  mkShOp "bf/s" "i8" 0x8F00 SHFMT_D SH_SUPERH2 (flags [SH_IMM16; SH_IMMREL; SH_IMMSIGNED; SH_DELAYED]);
  mkShOp "bt" "i8" 0x8900 SHFMT_D SH_SUPERH1 (flags [SH_IMM16; SH_IMMREL; SH_IMMSIGNED]);
  mkShOp "bt/s" "i8" 0x8D00 SHFMT_D SH_SUPERH2 (flags [SH_IMM16; SH_IMMREL; SH_IMMSIGNED; SH_DELAYED]);
  mkShOp "bra" "i12" 0xA000 SHFMT_D12 SH_SUPERH1 (flags [SH_IMM16; SH_IMMREL; SH_IMMSIGNED; SH_DELAYED]);
  mkShOp "bsr" "i12" 0xB000 SHFMT_D12 SH_SUPERH1 (flags [SH_IMM16; SH_IMMREL; SH_IMMSIGNED]);
  mkShOp "braf" "s" 0x0023 SHFMT_M SH_SUPERH2 (flags [SH_DELAYED]);
  mkShOp "bsrf" "s" 0x0003 SHFMT_M SH_SUPERH2 (flags [SH_DELAYED]);
  mkShOp "jmp" "s" 0x402B SHFMT_M SH_SUPERH1 (flags [SH_DELAYED]);
  mkShOp "jsr" "s" 0x400B SHFMT_M SH_SUPERH1 (flags [SH_DELAYED]);
  mkShOp "braf" "@s" 0x0023 SHFMT_M SH_SUPERH2 (flags [SH_DELAYED]);
  mkShOp "bsrf" "@s" 0x0003 SHFMT_M SH_SUPERH2 (flags [SH_DELAYED]);
  mkShOp "jmp" "@s" 0x402B SHFMT_M SH_SUPERH1 (flags [SH_DELAYED]);
  mkShOp "jsr" "@s" 0x400B SHFMT_M SH_SUPERH1 (flags [SH_DELAYED]);
  mkShOp "rts" "" 0x000B SHFMT_0 SH_SUPERH1 (flags [SH_DELAYED]);
  mkShOp "clrt" "" 0x0008 SHFMT_0 SH_SUPERH1 (flags []);
  mkShOp "clrmac" "" 0x0028 SHFMT_0 SH_SUPERH1 (flags []);
  mkShOp "ldc" "s,sr" 0x400E SHFMT_M SH_SUPERH1 (flags [SH_FREG]);
  mkShOp "ldc" "s,gbr" 0x401E SHFMT_M SH_SUPERH1 (flags [SH_FREG]);
  mkShOp "ldc" "s,vbr" 0x402E SHFMT_M SH_SUPERH1 (flags [SH_FREG]);
  mkShOp "ldc.l" "@s+,sr" 0x4007 SHFMT_M SH_SUPERH1 (flags [SH_FREG]);
  mkShOp "ldc.l" "@s+,gbr" 0x4017 SHFMT_M SH_SUPERH1 (flags [SH_FREG]);
  mkShOp "ldc.l" "@s+,vbr" 0x4027 SHFMT_M SH_SUPERH1 (flags [SH_FREG]);
  mkShOp "lds" "s,mach" 0x400A SHFMT_M SH_SUPERH1 (flags [SH_FREG]);
  mkShOp "lds" "s,macl" 0x401A SHFMT_M SH_SUPERH1 (flags [SH_FREG]);
  mkShOp "lds" "s,pr" 0x402A SHFMT_M SH_SUPERH1 (flags [SH_FREG]);
  mkShOp "lds.l" "@s+,mach" 0x4006 SHFMT_M SH_SUPERH1 (flags [SH_FREG]);
  mkShOp "lds.l" "@s+,macl" 0x4016 SHFMT_M SH_SUPERH1 (flags [SH_FREG]);
  mkShOp "lds.l" "@s+,pr" 0x4026 SHFMT_M SH_SUPERH1 (flags [SH_FREG]);
  mkShOp "nop" "" 0x0009 SHFMT_0 SH_SUPERH1 (flags []);
  mkShOp "rte" "" 0x002B SHFMT_0 SH_SUPERH1 (flags [SH_DELAYED]);
  mkShOp "sett" "" 0x0018 SHFMT_0 SH_SUPERH1 (flags []);
  mkShOp "sleep" "" 0x001B SHFMT_0 SH_SUPERH1 (flags []);
  mkShOp "stc" "sr,t" 0x0002 SHFMT_N SH_SUPERH1 (flags [SH_FREG]);
  mkShOp "stc" "gbr,t" 0x0012 SHFMT_N SH_SUPERH1 (flags [SH_FREG]);
  mkShOp "stc" "vbr,t" 0x0022 SHFMT_N SH_SUPERH1 (flags [SH_FREG]);
  mkShOp "stc.l" "sr,@-t" 0x4003 SHFMT_N SH_SUPERH1 (flags [SH_FREG]);
  mkShOp "stc.l" "gbr,@-t" 0x4013 SHFMT_N SH_SUPERH1 (flags [SH_FREG]);
  mkShOp "stc.l" "vbr,@-t" 0x4023 SHFMT_N SH_SUPERH1 (flags [SH_FREG]);
  mkShOp "sts" "mach,t" 0x000A SHFMT_N SH_SUPERH1 (flags [SH_FREG]);
  mkShOp "sts" "macl,t" 0x001A SHFMT_N SH_SUPERH1 (flags [SH_FREG]);
  mkShOp "sts" "pr,t" 0x002A SHFMT_N SH_SUPERH1 (flags [SH_FREG]);
  mkShOp "sts.l" "mach,@-t" 0x4002 SHFMT_N SH_SUPERH1 (flags [SH_FREG]);
  mkShOp "sts.l" "macl,@-t" 0x4012 SHFMT_N SH_SUPERH1 (flags [SH_FREG]);
  mkShOp "sts.l" "pr,@-t" 0x4022 SHFMT_N SH_SUPERH1 (flags [SH_FREG]);
  mkShOp "trapa" "#i8" 0xC300 SHFMT_I SH_SUPERH1 (flags [])
].
