(** Model of the Thumb-mode instruction encoder.

    Transcribes Archs/ARM/ThumbOpcodes.{h,cpp} and Archs/ARM/CThumbInstruction.cpp.  Expressions are
    evaluated by the caller, as for ARM mode.  [RErr]: an error was queued.  [RUb]: a variable is
    used that was never set. *)

Require Import ZArith Bool List String Ascii.
Require Import Verif.Ints Verif.Res Verif.ArmModel.
Import ListNotations.
Local Open Scope Z_scope.

(** Opcode types: ThumbOpcodes.h 3-21. *)
Definition THUMB_TYPE1 := 0.
Definition THUMB_TYPE2 := 1.
Definition THUMB_TYPE3 := 2.
Definition THUMB_TYPE4 := 3.
Definition THUMB_TYPE5 := 4.
Definition THUMB_TYPE6 := 5.
Definition THUMB_TYPE7 := 6.
Definition THUMB_TYPE8 := 7.
Definition THUMB_TYPE9 := 8.
Definition THUMB_TYPE10 := 9.
Definition THUMB_TYPE11 := 10.
Definition THUMB_TYPE12 := 11.
Definition THUMB_TYPE13 := 12.
Definition THUMB_TYPE14 := 13.
Definition THUMB_TYPE15 := 14.
Definition THUMB_TYPE16 := 15.
Definition THUMB_TYPE17 := 16.
Definition THUMB_TYPE18 := 17.
Definition THUMB_TYPE19 := 18.

(** Opcode flags: ThumbOpcodes.h 23-40. *)
Definition THUMB_ARM9 := 0x1.
Definition THUMB_IMMEDIATE := 0x2.
Definition THUMB_REGISTER := 0x4.
Definition THUMB_D := 0x8.
Definition THUMB_S := 0x10.
Definition THUMB_POOL := 0x20.
Definition THUMB_O := 0x40.
Definition THUMB_WORD := 0x80.
Definition THUMB_HALFWORD := 0x100.
Definition THUMB_RLIST := 0x200.
Definition THUMB_EXCHANGE := 0x400.
Definition THUMB_BRANCH := 0x800.
Definition THUMB_LONG := 0x1000.
Definition THUMB_PCR := 0x2000.
Definition THUMB_DS := 0x4000.
Definition THUMB_PCADD := 0x8000.
Definition THUMB_ADDSUB_IMMEDIATE := 0x10000.
Definition THUMB_RIGHTSHIFT_IMMEDIATE := 0x20000.

(** [struct tThumbOpcode]: ThumbOpcodes.h 42-50. *)
Record thumb_opcode := mkThumbOp {
  t_name : string; t_mask : string; t_encoding : Z; t_type : Z; t_length : Z; t_flags : Z }.

(** [Opcode.flags & FLAG]. *)
Definition thas (o : thumb_opcode) (flag : Z) : bool := hasf (t_flags o) flag.

Local Open Scope string_scope.
(** [ThumbOpcodes]: ThumbOpcodes.cpp 21-166, one entry per table row, same order. *)
Definition ThumbOpcodes : list thumb_opcode := [
  mkThumbOp "lsl" ("d,s,/#i" ++ chr 5) 0x0000 THUMB_TYPE1 2 (flags [THUMB_IMMEDIATE]);
  mkThumbOp "lsl" ("d,/#i" ++ chr 5) 0x0000 THUMB_TYPE1 2 (flags [THUMB_IMMEDIATE; THUMB_DS]);
  mkThumbOp "asl" ("d,s,/#i" ++ chr 5) 0x0000 THUMB_TYPE1 2 (flags [THUMB_IMMEDIATE]);
  mkThumbOp "asl" ("d,/#i" ++ chr 5) 0x0000 THUMB_TYPE1 2 (flags [THUMB_IMMEDIATE; THUMB_DS]);
  mkThumbOp "lsr" ("d,s,/#i" ++ chr 5) 0x0800 THUMB_TYPE1 2 (flags [THUMB_IMMEDIATE; THUMB_RIGHTSHIFT_IMMEDIATE]);
  mkThumbOp "lsr" ("d,/#i" ++ chr 5) 0x0800 THUMB_TYPE1 2 (flags [THUMB_IMMEDIATE; THUMB_RIGHTSHIFT_IMMEDIATE; THUMB_DS]);
  mkThumbOp "asr" ("d,s,/#i" ++ chr 5) 0x1000 THUMB_TYPE1 2 (flags [THUMB_IMMEDIATE; THUMB_RIGHTSHIFT_IMMEDIATE]);
  mkThumbOp "asr" ("d,/#i" ++ chr 5) 0x1000 THUMB_TYPE1 2 (flags [THUMB_IMMEDIATE; THUMB_RIGHTSHIFT_IMMEDIATE; THUMB_DS]);
  mkThumbOp "add" "d,s,n" 0x1800 THUMB_TYPE2 2 (flags [THUMB_REGISTER]);
  mkThumbOp "add" "d,n" 0x1800 THUMB_TYPE2 2 (flags [THUMB_REGISTER; THUMB_DS]);
  mkThumbOp "sub" "d,s,n" 0x1a00 THUMB_TYPE2 2 (flags [THUMB_REGISTER]);
  mkThumbOp "sub" "d,n" 0x1a00 THUMB_TYPE2 2 (flags [THUMB_REGISTER; THUMB_DS]);
  mkThumbOp "add" ("d,s,/#i" ++ chr 3) 0x1c00 THUMB_TYPE2 2 (flags [THUMB_IMMEDIATE; THUMB_ADDSUB_IMMEDIATE]);
  mkThumbOp "sub" ("d,s,/#i" ++ chr 3) 0x1e00 THUMB_TYPE2 2 (flags [THUMB_IMMEDIATE; THUMB_ADDSUB_IMMEDIATE]);
  mkThumbOp "mov" "d,s" 0x1c00 THUMB_TYPE2 2 (flags []);
  mkThumbOp "mov" ("d,/#i" ++ chr 8) 0x2000 THUMB_TYPE3 2 (flags [THUMB_IMMEDIATE]);
  mkThumbOp "cmp" ("d,/#i" ++ chr 8) 0x2800 THUMB_TYPE3 2 (flags [THUMB_IMMEDIATE]);
  mkThumbOp "add" ("d,/#i" ++ chr 8) 0x3000 THUMB_TYPE3 2 (flags [THUMB_IMMEDIATE; THUMB_ADDSUB_IMMEDIATE]);
  mkThumbOp "sub" ("d,/#i" ++ chr 8) 0x3800 THUMB_TYPE3 2 (flags [THUMB_IMMEDIATE; THUMB_ADDSUB_IMMEDIATE]);
  mkThumbOp "and" "d,s" 0x4000 THUMB_TYPE4 2 (flags [THUMB_REGISTER]);
  mkThumbOp "eor" "d,s" 0x4040 THUMB_TYPE4 2 (flags [THUMB_REGISTER]);
  mkThumbOp "xor" "d,s" 0x4040 THUMB_TYPE4 2 (flags [THUMB_REGISTER]);
  mkThumbOp "lsl" "d,s" 0x4080 THUMB_TYPE4 2 (flags [THUMB_REGISTER]);
  mkThumbOp "lsr" "d,s" 0x40c0 THUMB_TYPE4 2 (flags [THUMB_REGISTER]);
  mkThumbOp "asr" "d,s" 0x4100 THUMB_TYPE4 2 (flags [THUMB_REGISTER]);
  mkThumbOp "adc" "d,s" 0x4140 THUMB_TYPE4 2 (flags [THUMB_REGISTER]);
  mkThumbOp "sbc" "d,s" 0x4180 THUMB_TYPE4 2 (flags [THUMB_REGISTER]);
  mkThumbOp "ror" "d,s" 0x41c0 THUMB_TYPE4 2 (flags [THUMB_REGISTER]);
  mkThumbOp "tst" "d,s" 0x4200 THUMB_TYPE4 2 (flags [THUMB_REGISTER]);
  mkThumbOp "neg" "d,s" 0x4240 THUMB_TYPE4 2 (flags [THUMB_REGISTER]);
  mkThumbOp "cmp" "d,s" 0x4280 THUMB_TYPE4 2 (flags [THUMB_REGISTER]);
  mkThumbOp "cmn" "d,s" 0x42c0 THUMB_TYPE4 2 (flags [THUMB_REGISTER]);
  mkThumbOp "orr" "d,s" 0x4300 THUMB_TYPE4 2 (flags [THUMB_REGISTER]);
  mkThumbOp "mul" "d,s" 0x4340 THUMB_TYPE4 2 (flags [THUMB_REGISTER]);
  mkThumbOp "bic" "d,s" 0x4380 THUMB_TYPE4 2 (flags [THUMB_REGISTER]);
  mkThumbOp "mvn" "d,s" 0x43c0 THUMB_TYPE4 2 (flags [THUMB_REGISTER]);
  mkThumbOp "add" "D,S" 0x4400 THUMB_TYPE5 2 (flags [THUMB_D; THUMB_S]);
  mkThumbOp "cmp" "D,S" 0x4500 THUMB_TYPE5 2 (flags [THUMB_D; THUMB_S]);
  mkThumbOp "mov" "D,S" 0x4600 THUMB_TYPE5 2 (flags [THUMB_D; THUMB_S]);
  mkThumbOp "nop" "" 0x46c0 THUMB_TYPE5 2 (flags []);
  mkThumbOp "bx" "S" 0x4700 THUMB_TYPE5 2 (flags [THUMB_S]);
  mkThumbOp "blx" "S" 0x4780 THUMB_TYPE5 2 (flags [THUMB_S; THUMB_ARM9]);
  mkThumbOp "ldr" ("d,[r" ++ chr 15 ++ "]") 0x4800 THUMB_TYPE6 2 (flags []);
  mkThumbOp "ldr" ("d,[r" ++ chr 15 ++ ",/#i" ++ chr 8 ++ "]") 0x4800 THUMB_TYPE6 2 (flags [THUMB_IMMEDIATE; THUMB_WORD]);
  mkThumbOp "ldr" ("d,[/#I" ++ chr 32 ++ "]") 0x4800 THUMB_TYPE6 2 (flags [THUMB_IMMEDIATE; THUMB_PCR]);
  mkThumbOp "ldr" ("d,=/#I" ++ chr 32) 0x4800 THUMB_TYPE6 2 (flags [THUMB_IMMEDIATE; THUMB_POOL]);
  mkThumbOp "str" "d,[s,o]" 0x5000 THUMB_TYPE7 2 (flags [THUMB_D; THUMB_S; THUMB_O]);
  mkThumbOp "strb" "d,[s,o]" 0x5400 THUMB_TYPE7 2 (flags [THUMB_D; THUMB_S; THUMB_O]);
  mkThumbOp "ldr" "d,[s,o]" 0x5800 THUMB_TYPE7 2 (flags [THUMB_D; THUMB_S; THUMB_O]);
  mkThumbOp "ldrb" "d,[s,o]" 0x5c00 THUMB_TYPE7 2 (flags [THUMB_D; THUMB_S; THUMB_O]);
  mkThumbOp "strh" "d,[s,o]" 0x5200 THUMB_TYPE8 2 (flags [THUMB_D; THUMB_S; THUMB_O]);
  mkThumbOp "ldsb" "d,[s,o]" 0x5600 THUMB_TYPE8 2 (flags [THUMB_D; THUMB_S; THUMB_O]);
  mkThumbOp "ldrsb" "d,[s,o]" 0x5600 THUMB_TYPE8 2 (flags [THUMB_D; THUMB_S; THUMB_O]);
  mkThumbOp "ldrh" "d,[s,o]" 0x5a00 THUMB_TYPE8 2 (flags [THUMB_D; THUMB_S; THUMB_O]);
  mkThumbOp "ldsh" "d,[s,o]" 0x5e00 THUMB_TYPE8 2 (flags [THUMB_D; THUMB_S; THUMB_O]);
  mkThumbOp "ldrsh" "d,[s,o]" 0x5e00 THUMB_TYPE8 2 (flags [THUMB_D; THUMB_S; THUMB_O]);
  mkThumbOp "str" ("d,[s,/#i" ++ chr 5 ++ "]") 0x6000 THUMB_TYPE9 2 (flags [THUMB_D; THUMB_S; THUMB_IMMEDIATE; THUMB_WORD]);
  mkThumbOp "str" "d,[s]" 0x6000 THUMB_TYPE9 2 (flags [THUMB_D; THUMB_S]);
  mkThumbOp "ldr" ("d,[s,/#i" ++ chr 5 ++ "]") 0x6800 THUMB_TYPE9 2 (flags [THUMB_D; THUMB_S; THUMB_IMMEDIATE; THUMB_WORD]);
  mkThumbOp "ldr" "d,[s]" 0x6800 THUMB_TYPE9 2 (flags [THUMB_D; THUMB_S]);
  mkThumbOp "strb" ("d,[s,/#i" ++ chr 5 ++ "]") 0x7000 THUMB_TYPE9 2 (flags [THUMB_D; THUMB_S; THUMB_IMMEDIATE]);
  mkThumbOp "strb" "d,[s]" 0x7000 THUMB_TYPE9 2 (flags [THUMB_D; THUMB_S]);
  mkThumbOp "ldrb" ("d,[s,/#i" ++ chr 5 ++ "]") 0x7800 THUMB_TYPE9 2 (flags [THUMB_D; THUMB_S; THUMB_IMMEDIATE]);
  mkThumbOp "ldrb" "d,[s]" 0x7800 THUMB_TYPE9 2 (flags [THUMB_D; THUMB_S]);
  mkThumbOp "strh" ("d,[s,/#i" ++ chr 5 ++ "]") 0x8000 THUMB_TYPE10 2 (flags [THUMB_D; THUMB_S; THUMB_IMMEDIATE; THUMB_HALFWORD]);
  mkThumbOp "strh" "d,[s]" 0x8000 THUMB_TYPE10 2 (flags [THUMB_D; THUMB_S]);
  mkThumbOp "ldrh" ("d,[s,/#i" ++ chr 5 ++ "]") 0x8800 THUMB_TYPE10 2 (flags [THUMB_D; THUMB_S; THUMB_IMMEDIATE; THUMB_HALFWORD]);
  mkThumbOp "ldrh" "d,[s]" 0x8800 THUMB_TYPE10 2 (flags [THUMB_D; THUMB_S]);
  mkThumbOp "str" ("d,[r" ++ chr 13 ++ ",/#i" ++ chr 8 ++ "]") 0x9000 THUMB_TYPE11 2 (flags [THUMB_D; THUMB_IMMEDIATE; THUMB_WORD]);
  mkThumbOp "str" ("d,[r" ++ chr 13 ++ "]") 0x9000 THUMB_TYPE11 2 (flags [THUMB_D]);
  mkThumbOp "ldr" ("d,[r" ++ chr 13 ++ ",/#i" ++ chr 8 ++ "]") 0x9800 THUMB_TYPE11 2 (flags [THUMB_D; THUMB_IMMEDIATE; THUMB_WORD]);
  mkThumbOp "ldr" ("d,[r" ++ chr 13 ++ "]") 0x9800 THUMB_TYPE11 2 (flags [THUMB_D]);
  mkThumbOp "add" ("d,r" ++ chr 15 ++ ",/#i" ++ chr 8) 0xa000 THUMB_TYPE12 2 (flags [THUMB_D; THUMB_IMMEDIATE; THUMB_WORD]);
  mkThumbOp "add" ("d,=/#i" ++ chr 32) 0xa000 THUMB_TYPE12 2 (flags [THUMB_D; THUMB_IMMEDIATE; THUMB_PCR]);
  mkThumbOp "add" ("d,r" ++ chr 13 ++ ",/#i" ++ chr 8) 0xa800 THUMB_TYPE12 2 (flags [THUMB_D; THUMB_IMMEDIATE; THUMB_WORD]);
  mkThumbOp "add" ("r" ++ chr 13 ++ ",/#i" ++ chr 7) 0xb000 THUMB_TYPE13 2 (flags [THUMB_IMMEDIATE; THUMB_WORD; THUMB_ADDSUB_IMMEDIATE]);
  mkThumbOp "sub" ("r" ++ chr 13 ++ ",/#i" ++ chr 7) 0xb080 THUMB_TYPE13 2 (flags [THUMB_IMMEDIATE; THUMB_WORD; THUMB_ADDSUB_IMMEDIATE]);
  mkThumbOp "add" ("r" ++ chr 13 ++ ",r" ++ chr 13 ++ ",/#i" ++ chr 7) 0xb000 THUMB_TYPE13 2 (flags [THUMB_IMMEDIATE; THUMB_WORD; THUMB_ADDSUB_IMMEDIATE]);
  mkThumbOp "sub" ("r" ++ chr 13 ++ ",r" ++ chr 13 ++ ",/#i" ++ chr 7) 0xb080 THUMB_TYPE13 2 (flags [THUMB_IMMEDIATE; THUMB_WORD; THUMB_ADDSUB_IMMEDIATE]);
  mkThumbOp "push" ("/{R" ++ chr 255 ++ chr 64 ++ "/}") 0xb400 THUMB_TYPE14 2 (flags [THUMB_RLIST]);
  mkThumbOp "pop" ("/{R" ++ chr 255 ++ chr 128 ++ "/}") 0xbc00 THUMB_TYPE14 2 (flags [THUMB_RLIST]);
  mkThumbOp "stmia" ("/[d/]!,/{R" ++ chr 255 ++ chr 0 ++ "/}") 0xc000 THUMB_TYPE15 2 (flags [THUMB_D; THUMB_RLIST]);
  mkThumbOp "ldmia" ("/[d/]!,/{R" ++ chr 255 ++ chr 0 ++ "/}") 0xc800 THUMB_TYPE15 2 (flags [THUMB_D; THUMB_RLIST]);
  mkThumbOp "beq" ("/#I" ++ chr 8) 0xd000 THUMB_TYPE16 2 (flags [THUMB_IMMEDIATE; THUMB_BRANCH]);
  mkThumbOp "bne" ("/#I" ++ chr 8) 0xd100 THUMB_TYPE16 2 (flags [THUMB_IMMEDIATE; THUMB_BRANCH]);
  mkThumbOp "bcs" ("/#I" ++ chr 8) 0xd200 THUMB_TYPE16 2 (flags [THUMB_IMMEDIATE; THUMB_BRANCH]);
  mkThumbOp "bhs" ("/#I" ++ chr 8) 0xd200 THUMB_TYPE16 2 (flags [THUMB_IMMEDIATE; THUMB_BRANCH]);
  mkThumbOp "bcc" ("/#I" ++ chr 8) 0xd300 THUMB_TYPE16 2 (flags [THUMB_IMMEDIATE; THUMB_BRANCH]);
  mkThumbOp "blo" ("/#I" ++ chr 8) 0xd300 THUMB_TYPE16 2 (flags [THUMB_IMMEDIATE; THUMB_BRANCH]);
  mkThumbOp "bmi" ("/#I" ++ chr 8) 0xd400 THUMB_TYPE16 2 (flags [THUMB_IMMEDIATE; THUMB_BRANCH]);
  mkThumbOp "bpl" ("/#I" ++ chr 8) 0xd500 THUMB_TYPE16 2 (flags [THUMB_IMMEDIATE; THUMB_BRANCH]);
  mkThumbOp "bvs" ("/#I" ++ chr 8) 0xd600 THUMB_TYPE16 2 (flags [THUMB_IMMEDIATE; THUMB_BRANCH]);
  mkThumbOp "bvc" ("/#I" ++ chr 8) 0xd700 THUMB_TYPE16 2 (flags [THUMB_IMMEDIATE; THUMB_BRANCH]);
  mkThumbOp "bhi" ("/#I" ++ chr 8) 0xd800 THUMB_TYPE16 2 (flags [THUMB_IMMEDIATE; THUMB_BRANCH]);
  mkThumbOp "bls" ("/#I" ++ chr 8) 0xd900 THUMB_TYPE16 2 (flags [THUMB_IMMEDIATE; THUMB_BRANCH]);
  mkThumbOp "bge" ("/#I" ++ chr 8) 0xda00 THUMB_TYPE16 2 (flags [THUMB_IMMEDIATE; THUMB_BRANCH]);
  mkThumbOp "blt" ("/#I" ++ chr 8) 0xdb00 THUMB_TYPE16 2 (flags [THUMB_IMMEDIATE; THUMB_BRANCH]);
  mkThumbOp "bgt" ("/#I" ++ chr 8) 0xdc00 THUMB_TYPE16 2 (flags [THUMB_IMMEDIATE; THUMB_BRANCH]);
  mkThumbOp "ble" ("/#I" ++ chr 8) 0xdd00 THUMB_TYPE16 2 (flags [THUMB_IMMEDIATE; THUMB_BRANCH]);
  mkThumbOp "swi" ("/#i" ++ chr 8) 0xdf00 THUMB_TYPE17 2 (flags [THUMB_IMMEDIATE]);
  mkThumbOp "bkpt" ("/#i" ++ chr 8) 0xbe00 THUMB_TYPE17 2 (flags [THUMB_IMMEDIATE; THUMB_ARM9]);
  mkThumbOp "b" ("/#I" ++ chr 11) 0xe000 THUMB_TYPE18 2 (flags [THUMB_IMMEDIATE; THUMB_BRANCH]);
  mkThumbOp "bl" ("r" ++ chr 14) 0xf800 THUMB_TYPE19 4 (flags []);
  mkThumbOp "bl" ("r" ++ chr 14 ++ "+/#I" ++ chr 11) 0xf800 THUMB_TYPE19 4 (flags [THUMB_IMMEDIATE; THUMB_HALFWORD]);
  mkThumbOp "blh" ("/#I" ++ chr 11) 0xf800 THUMB_TYPE19 4 (flags [THUMB_IMMEDIATE; THUMB_HALFWORD]);
  mkThumbOp "bl" ("/#I" ++ chr 22) 0xf000 THUMB_TYPE19 4 (flags [THUMB_IMMEDIATE; THUMB_BRANCH; THUMB_LONG]);
  mkThumbOp "blx" ("/#I" ++ chr 22) 0xf000 THUMB_TYPE19 4 (flags [THUMB_IMMEDIATE; THUMB_ARM9; THUMB_EXCHANGE; THUMB_BRANCH; THUMB_LONG]);
  mkThumbOp "bl" ("/#I" ++ chr 22) 0xf800 THUMB_TYPE19 4 (flags [THUMB_IMMEDIATE; THUMB_BRANCH; THUMB_LONG]);
  mkThumbOp "blx" ("/#I" ++ chr 22) 0xf800 THUMB_TYPE19 4 (flags [THUMB_IMMEDIATE; THUMB_ARM9; THUMB_EXCHANGE; THUMB_BRANCH; THUMB_LONG])
].
Local Close Scope string_scope.

(** The row ArmParser::parseThumbOpcode (ArmParser.cpp 750-786) takes for operands of the shape
    [mask]: the first one with this name and mask. *)
Definition thumb_row (name mask : string) : option thumb_opcode :=
  find (fun o => (t_name o =? name) && (t_mask o =? mask))%string ThumbOpcodes.

(** The operands the parser delivers, ThumbOpcodeVariables, CThumbInstruction.h 7-20. *)
Record thumb_in := mkThumbIn {
  h_op : thumb_opcode; h_rd : Z; h_rs : Z; h_rn : Z; h_ro : Z; h_bitlen : Z; h_rlist : Z }.

(** The bit length of the immediate, from the character after [i] or [I] of the mask:
    ArmParser::parseThumbParameters, ArmParser.cpp 733-737. *)
Fixpoint mask_bitlen (m : string) : Z :=
  match m with
  | String "i" (String b _) | String "I" (String b _) => Z.of_N (N_of_ascii b)
  | String _ m => mask_bitlen m
  | EmptyString => 0
  end.

(** ** Register lists *)
(** The check of parseRegisterList, ArmParser.cpp 150-182, with the mask of parseThumbParameters,
    728-732: the two characters after [R], of which the first, when [char] is signed, becomes -1. *)
Definition char_value (signed : bool) (b : Z) : Z := if signed then s8 b else b.
Definition list_accepted (signed : bool) (b0 b1 : Z) (rlist : Z) : bool :=
  Z.land (Z.lor (char_value signed b0) (Z.shiftl (char_value signed b1) 8)) rlist =? rlist.
(** The list from its items, 155-179: a register or a range; [None]: a range that goes down. *)
Fixpoint list_items (l : list (Z * option Z)) : option Z :=
  match l with
  | [] => Some 0
  | (r, None) :: l => match list_items l with Some d => Some (Z.lor (Z.shiftl 1 r) d) | None => None end
  | (r, Some r2) :: l =>
      if r2 <? r then None
      else match list_items l with
           | Some d => Some (Z.lor (fold_right (fun i d => Z.lor (Z.shiftl 1 (r + Z.of_nat i)) d) 0 (seq 0 (Z.to_nat (r2 - r + 1)))) d)
           | None => None
           end
  end.

(** ** Validate: CThumbInstruction.cpp 37-199 *)

(** What Validate leaves for Encode: Immediate, and the new encoding if it is used. *)
Record thumb_st := mkThumbSt { y_imm : option Z; y_newenc : option Z }.

(** setPoolAddress, 23-33 *)
Definition thumb_pool_offset (ramPos address : Z) : res Z :=
  let pos := s32 (s32 address - Z.land (ramPos + 4) 0xFFFFFFFD) in
  if (pos <? 0) || (pos >? 1020) then RErr else ROk (Z.shiftr pos 2).

(** 86-140: the immediate of each kind.  [pool]: the address the literal pool gives its entry. *)
Definition thumb_scaled (o : thumb_opcode) (bitlen ramPos imm pool : Z) : res Z :=
  if thas o THUMB_BRANCH then
    if (if thas o THUMB_EXCHANGE then negb (Z.land imm 3 =? 0) else negb (Z.land imm 1 =? 0)) then RErr
    else
      let num := s32 (imm - ramPos - 4) in
      if (num >=? Z.shiftl 1 bitlen) || (num <? 0 - Z.shiftl 1 bitlen) then RErr
      else
        let i := Z.shiftr num 1 in
        ROk (if thas o THUMB_EXCHANGE then i + Z.land i 1 else i)
  else if thas o THUMB_WORD then
    if negb (Z.land imm 3 =? 0) then RErr else ROk (Z.shiftr imm 2)
  else if thas o THUMB_HALFWORD then
    if negb (Z.land imm 1 =? 0) then RErr else ROk (Z.shiftr imm 1)
  else if thas o THUMB_POOL then thumb_pool_offset ramPos pool
  else if thas o THUMB_PCR then
    if negb (Z.land imm 3 =? 0) then RErr
    else
      let pos := s32 (imm - Z.land (ramPos + 4) 0xFFFFFFFD) in
      if (pos <? 0) || (pos >? 1020) then RErr else ROk (Z.shiftr pos 2)
  else ROk imm.

(** 142-169: additions of negative numbers *)
Definition thumb_addsub (o : thumb_opcode) (bitlen imm : Z) : Z * option Z :=
  let max := Z.shiftl 1 bitlen - 1 in
  if thas o THUMB_ADDSUB_IMMEDIATE && (- max <=? imm) && (imm <? 0) then
    if t_type o =? THUMB_TYPE2 then (- imm, Some (Z.lxor (t_encoding o) 0x0200))
    else if t_type o =? THUMB_TYPE3 then (- imm, Some (Z.lxor (t_encoding o) 0x0800))
    else if t_type o =? THUMB_TYPE13 then (- imm, Some (Z.lxor (t_encoding o) 0x0080))
    else (imm, None)
  else (imm, None).

(** 171-193: the range *)
Definition thumb_range (o : thumb_opcode) (bitlen imm : Z) : res Z :=
  let max := Z.shiftl 1 bitlen - 1 in
  if t_type o =? THUMB_TYPE1 then
    if (imm <? 0) || (imm >? (if thas o THUMB_RIGHTSHIFT_IMMEDIATE then 32 else 31)) then RErr else ROk imm
  else if thas o THUMB_BRANCH then ROk (Z.land imm max)
  else if thas o THUMB_POOL || thas o THUMB_PCR then ROk imm
  else if (imm <? 0) || (imm >? max) then RErr
  else ROk imm.

Definition thumb_validate (i : thumb_in) (ramPos : Z) (v : imm_value) (pool : Z) : res thumb_st :=
  let o := h_op i in
  if thas o THUMB_IMMEDIATE then
    do imm <- match v with
              | IInt z => ROk (s32 z)
              | IFloat b => if thas o THUMB_POOL then ROk (s32 b) else RErr
              | IBad => RErr
              end;
    do imm <- thumb_scaled o (h_bitlen i) ramPos imm pool;
    let '(imm, enc) := thumb_addsub o (h_bitlen i) imm in
    do imm <- thumb_range o (h_bitlen i) imm;
    ROk (mkThumbSt (Some imm) enc)
  else ROk (mkThumbSt None None).

(** ** Encode: CThumbInstruction.cpp 206-316.  [rs] is replaced by [rd] for THUMB_DS (52-55). *)
Definition need (i : option Z) : res Z := match i with Some x => ROk x | None => RUb end.
Definition thumb_encode (i : thumb_in) (s : thumb_st) : res (list Z) :=
  let o := h_op i in
  let rd := h_rd i in
  let rs := if thas o THUMB_DS then h_rd i else h_rs i in
  let enc := match y_newenc s with Some e => e | None => t_encoding o end in
  let shl := Z.shiftl in
  let one (w : Z) : res (list Z) := ROk [u16 w] in
  let t := t_type o in
  if t =? THUMB_TYPE19 then
    if thas o THUMB_LONG then
      do imm <- need (y_imm s);
      ROk [u16 (Z.lor enc (Z.land (Z.shiftr imm 11) 0x7FF));
           u16 (Z.lor (if thas o THUMB_EXCHANGE then 0xE800 else 0xF800) (Z.land imm 0x7FF))]
    else if thas o THUMB_IMMEDIATE then
      do imm <- need (y_imm s); one (Z.lor enc (Z.land imm 0x7FF))
    else one enc
  else if t =? THUMB_TYPE1 then
    do imm <- need (y_imm s);
    let enc := if thas o THUMB_RIGHTSHIFT_IMMEDIATE && (imm =? 0) then 0 else enc in
    one (Z.lor (Z.lor (Z.lor enc (shl (Z.land imm 0x1F) 6)) (shl rs 3)) rd)
  else if t =? THUMB_TYPE2 then
    do enc <- (if thas o THUMB_IMMEDIATE then do imm <- need (y_imm s); ROk (Z.lor enc (shl imm 6))
               else ROk (if thas o THUMB_REGISTER then Z.lor enc (shl (h_rn i) 6) else enc));
    one (Z.lor (Z.lor enc (shl rs 3)) rd)
  else if (t =? THUMB_TYPE3) || (t =? THUMB_TYPE6) || (t =? THUMB_TYPE12) then
    do imm <- need (y_imm s); one (Z.lor (Z.lor enc (shl rd 8)) imm)
  else if t =? THUMB_TYPE4 then one (Z.lor (Z.lor enc (shl rs 3)) rd)
  else if t =? THUMB_TYPE5 then
    let enc := if thas o THUMB_D then Z.lor (if rd >? 7 then Z.lor enc (shl 1 7) else enc) (Z.land rd 7) else enc in
    let enc := if thas o THUMB_S then Z.lor (if rs >? 7 then Z.lor enc (shl 1 6) else enc) (shl (Z.land rs 7) 3) else enc in
    one enc
  else if (t =? THUMB_TYPE7) || (t =? THUMB_TYPE8) then
    one (Z.lor (Z.lor (Z.lor enc (shl (h_ro i) 6)) (shl rs 3)) rd)
  else if (t =? THUMB_TYPE9) || (t =? THUMB_TYPE10) then
    do enc <- (if thas o THUMB_IMMEDIATE then do imm <- need (y_imm s); ROk (Z.lor enc (shl imm 6)) else ROk enc);
    one (Z.lor (Z.lor enc (shl rs 3)) rd)
  else if t =? THUMB_TYPE11 then
    do e <- (if thas o THUMB_IMMEDIATE then need (y_imm s) else ROk 0);
    one (Z.lor (Z.lor enc (shl rd 8)) e)
  else if t =? THUMB_TYPE14 then
    one (Z.lor (if negb (Z.land (h_rlist i) 0xC000 =? 0) then Z.lor enc (shl 1 8) else enc) (Z.land (h_rlist i) 0xFF))
  else if t =? THUMB_TYPE15 then
    one (Z.lor (Z.lor enc (shl rd 8)) (Z.land (h_rlist i) 0xFF))
  else (* THUMB_TYPE13, 16, 17, 18 *)
    do imm <- need (y_imm s); one (Z.lor enc imm).

Definition thumb_assemble (i : thumb_in) (ramPos : Z) (v : imm_value) (pool : Z) : res (list Z) :=
  do s <- thumb_validate i ramPos v pool; thumb_encode i s.
