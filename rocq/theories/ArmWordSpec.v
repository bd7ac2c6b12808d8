(** Specification side for whole ARM words: a decoder for the A32 instruction set (ARMv5TE, as in the
    ARM Architecture Reference Manual), and what each form of source line asks for.  Nothing here
    refers to the model of the assembler. *)

Require Import ZArith Bool List String Ascii.
Require Import Verif.Ints Verif.ArmSpec.
Import ListNotations.
Local Open Scope Z_scope.

(** * Instructions *)

(** Second operand of a data-processing instruction. *)
Inductive operand2 :=
| OpImm (v : Z)
| OpShift (rm : Z) (sh : shift_op)
| OpShiftReg (rm ty rs : Z).
(** Offset of a load or store: a signed number, or a register that is added or subtracted. *)
Inductive offset :=
| OffImm (z : Z)
| OffReg (sub : bool) (rm : Z) (sh : shift_op).
(** Plain offset, pre-indexed with write-back, post-indexed, and post-indexed in user mode. *)
Inductive index := IxOffset | IxPre | IxPost | IxPostUser.
Inductive half_kind := HStrh | HLdrd | HStrd | HLdrh | HLdrsb | HLdrsh.

Inductive ainstr :=
| ADp (cond opc : Z) (s : bool) (rn rd : Z) (op2 : operand2)
| AMrs (cond : Z) (spsr : bool) (rd : Z)
| AMsr (cond : Z) (spsr : bool) (field : Z) (op : operand2)
| AMul (cond : Z) (s : bool) (rd rm rs : Z) (acc : option Z)
| AMull (cond : Z) (signed acc s : bool) (rdhi rdlo rm rs : Z)
| ASmla (cond : Z) (x y : bool) (rd rm rs rn : Z)
| ASmlaw (cond : Z) (y : bool) (rd rm rs rn : Z)
| ASmulw (cond : Z) (y : bool) (rd rm rs : Z)
| ASmlal (cond : Z) (x y : bool) (rdhi rdlo rm rs : Z)
| ASmul (cond : Z) (x y : bool) (rd rm rs : Z)
| AMem (cond : Z) (load byte : bool) (ix : index) (rn rd : Z) (off : offset)
| APld (rn : Z) (off : offset)
| AHalf (cond : Z) (k : half_kind) (ix : index) (rn rd : Z) (off : offset)
| ABlock (cond : Z) (load before up user wb : bool) (rn list : Z)
| ASwp (cond : Z) (byte : bool) (rd rm rn : Z)
| ASwi (cond imm : Z)
| ABkpt (imm : Z)
| ACop (c : cop_instr)
| AClz (cond rd rm : Z)
| ASat (cond op rd rm rn : Z)
| ABx (cond : Z) (link : bool) (rm : Z)
| ABranch (k : br_kind) (cond target : Z).

(** * Decoder *)

Definition flag (w n : Z) : bool := bits w n 1 =? 1.

Definition index_of (p wb : bool) : index :=
  match p, wb with
  | true, false => IxOffset
  | true, true => IxPre
  | false, false => IxPost
  | false, true => IxPostUser
  end.
Definition signed_off (up : bool) (v : Z) : Z := if up then v else - v.

(** The space of multiplications, swaps and halfword/doubleword transfers: bits 27..25 = 000 and
    bits 7 and 4 set. *)
Definition half_of (load : bool) (op : Z) : option half_kind :=
  match load, op with
  | false, 1 => Some HStrh | false, 2 => Some HLdrd | false, 3 => Some HStrd
  | true, 1 => Some HLdrh | true, 2 => Some HLdrsb | true, 3 => Some HLdrsh
  | _, _ => None
  end.
(** Doubleword transfers with an odd register are undefined. *)
Definition half_defined (k : half_kind) (rd : Z) : bool :=
  match k with HLdrd | HStrd => Z.even rd | _ => true end.
Definition decode_multiply (w : Z) : option ainstr :=
  let c := bits w 28 4 in
  if bits w 5 2 =? 0 then
    if bits w 22 3 =? 0 then
      if flag w 21 then Some (AMul c (flag w 20) (bits w 16 4) (bits w 0 4) (bits w 8 4) (Some (bits w 12 4)))
      else if bits w 12 4 =? 0 then Some (AMul c (flag w 20) (bits w 16 4) (bits w 0 4) (bits w 8 4) None)
      else None
    else if bits w 23 2 =? 1 then
      Some (AMull c (flag w 22) (flag w 21) (flag w 20) (bits w 16 4) (bits w 12 4) (bits w 0 4) (bits w 8 4))
    else if (bits w 23 2 =? 2) && (bits w 20 2 =? 0) && (bits w 8 4 =? 0) then
      Some (ASwp c (flag w 22) (bits w 12 4) (bits w 0 4) (bits w 16 4))
    else None
  else
    match half_of (flag w 20) (bits w 5 2), index_of (flag w 24) (flag w 21) with
    | _, IxPostUser => None
    | None, _ => None
    | Some k, ix =>
        if negb (half_defined k (bits w 12 4)) then None
        else if flag w 22 then
          Some (AHalf c k ix (bits w 16 4) (bits w 12 4)
                      (OffImm (signed_off (flag w 23) (16 * bits w 8 4 + bits w 0 4))))
        else if bits w 8 4 =? 0 then
          Some (AHalf c k ix (bits w 16 4) (bits w 12 4) (OffReg (negb (flag w 23)) (bits w 0 4) (ShLSL 0)))
        else None
    end.
(** The space of the comparison opcodes without S: bits 27..23 = 00010, bit 20 clear. *)
Definition decode_misc (w : Z) : option ainstr :=
  let c := bits w 28 4 in
  if flag w 7 then
    (* signed halfword multiplications, bit 4 clear *)
    match bits w 21 2 with
    | 0 => Some (ASmla c (flag w 5) (flag w 6) (bits w 16 4) (bits w 0 4) (bits w 8 4) (bits w 12 4))
    | 1 => if flag w 5 then
             if bits w 12 4 =? 0 then Some (ASmulw c (flag w 6) (bits w 16 4) (bits w 0 4) (bits w 8 4)) else None
           else Some (ASmlaw c (flag w 6) (bits w 16 4) (bits w 0 4) (bits w 8 4) (bits w 12 4))
    | 2 => Some (ASmlal c (flag w 5) (flag w 6) (bits w 16 4) (bits w 12 4) (bits w 0 4) (bits w 8 4))
    | _ => if bits w 12 4 =? 0 then Some (ASmul c (flag w 5) (flag w 6) (bits w 16 4) (bits w 0 4) (bits w 8 4))
           else None
    end
  else
    match bits w 4 3 with
    | 0 => if flag w 21 then
             if (bits w 12 4 =? 15) && (bits w 8 4 =? 0)
             then Some (AMsr c (flag w 22) (bits w 16 4) (OpShift (bits w 0 4) (ShLSL 0))) else None
           else if (bits w 16 4 =? 15) && (bits w 0 12 =? 0)
             then Some (AMrs c (flag w 22) (bits w 12 4)) else None
    | 1 => match bits w 21 2 with
           | 1 => if bits w 8 12 =? 0xFFF then Some (ABx c false (bits w 0 4)) else None
           | 3 => if (bits w 16 4 =? 15) && (bits w 8 4 =? 15) then Some (AClz c (bits w 12 4) (bits w 0 4)) else None
           | _ => None
           end
    | 3 => if (bits w 21 2 =? 1) && (bits w 8 12 =? 0xFFF) then Some (ABx c true (bits w 0 4)) else None
    | 5 => if bits w 8 4 =? 0
           then Some (ASat c (bits w 21 2) (bits w 12 4) (bits w 0 4) (bits w 16 4)) else None
    | 7 => if (bits w 21 2 =? 1) && (c =? 14) then Some (ABkpt (16 * bits w 8 12 + bits w 0 4)) else None
    | _ => None
    end.

Definition of_dp_imm (d : dp_imm) : ainstr :=
  ADp (dp_cond d) (dp_opc d) (dp_s d) (dp_rn d) (dp_rd d) (OpImm (dp_val d)).
Definition of_dp_reg (d : dp_reg) : ainstr :=
  ADp (dr_cond d) (dr_opc d) (dr_s d) (dr_rn d) (dr_rd d) (OpShift (dr_rm d) (dr_shift d)).
Definition of_dp_rsr (d : dp_rsr) : ainstr :=
  ADp (ds_cond d) (ds_opc d) (ds_s d) (ds_rn d) (ds_rd d) (OpShiftReg (ds_rm d) (ds_type d) (ds_rs d)).
Definition of_mem_reg (m : mem_reg) : ainstr :=
  AMem (mr_cond m) (mr_l m) (mr_b m) (index_of (mr_p m) (mr_w m)) (mr_rn m) (mr_rd m)
       (OffReg (negb (mr_u m)) (mr_rm m) (mr_shift m)).
Definition of_branch (b : br_kind * Z * Z) : ainstr := let '(k, c, t) := b in ABranch k c t.

(** The unconditional space: condition field 1111. *)
Definition decode_uncond (addr w : Z) : option ainstr :=
  if bits w 25 3 =? 5 then option_map of_branch (decode_branch addr w)
  else if (bits w 26 2 =? 1) && flag w 24 && (bits w 20 3 =? 5) && (bits w 12 4 =? 15) then
    if flag w 25 then
      if flag w 4 then None
      else Some (APld (bits w 16 4) (OffReg (negb (flag w 23)) (bits w 0 4) (decode_imm_shift (bits w 5 2) (bits w 7 5))))
    else Some (APld (bits w 16 4) (OffImm (signed_off (flag w 23) (bits w 0 12))))
  else if bits w 24 4 =? 14 then option_map ACop (decode_cop w)
  else None.

(** The instruction that the 32-bit word [w] at address [addr] is. *)
Definition arm_decode (addr w : Z) : option ainstr :=
  if bits w 28 4 =? 15 then decode_uncond addr w
  else
    let misc := (bits w 23 2 =? 2) && negb (flag w 20) in
    match bits w 25 3 with
    | 0 => if flag w 4 && flag w 7 then decode_multiply w
           else if misc then decode_misc w
           else if flag w 4 then option_map of_dp_rsr (decode_dp_rsr w)
           else option_map of_dp_reg (decode_dp_reg w)
    | 1 => if misc then
             if flag w 21 && (bits w 12 4 =? 15)
             then Some (AMsr (bits w 28 4) (flag w 22) (bits w 16 4) (OpImm (arm_expand_imm (bits w 0 12))))
             else None
           else option_map of_dp_imm (decode_dp_imm w)
    | 2 => Some (AMem (bits w 28 4) (flag w 20) (flag w 22) (index_of (flag w 24) (flag w 21)) (bits w 16 4) (bits w 12 4)
                      (OffImm (signed_off (flag w 23) (bits w 0 12))))
    | 3 => option_map of_mem_reg (decode_mem_reg w)
    | 4 => Some (ABlock (bits w 28 4) (flag w 20) (flag w 24) (flag w 23) (flag w 22) (flag w 21) (bits w 16 4) (bits w 0 16))
    | 5 => option_map of_branch (decode_branch addr w)
    | 6 => option_map ACop (decode_cop w)
    | _ => if flag w 24 then Some (ASwi (bits w 28 4) (bits w 0 24)) else option_map ACop (decode_cop w)
    end.

(** * Source lines *)

(** What may follow the base register of a load or store: nothing ([rn] or [rn]!), a register, or a
    number; before or after the closing bracket. *)
Inductive place_form :=
| PlBase (wb : bool)
| PlReg (post : bool)
| PlImm (post : bool).
Inductive aform :=
| FBx (link : bool)
| FBranch (k : br_kind)
| FDpImm (opc : Z) (sn sd : rsel)
| FDpReg (opc : Z) (sn sd : rsel) (sm : msel)
| FNop
| FAdr
| FMsr (imm : bool)
| FMrs
| FMul (acc two : bool)
| FMull (signed acc : bool)
| FSmla | FSmlaw | FSmulw | FSmlal | FSmul
| FMem (load byte user : bool) (p : place_form)
| FMemAbs (load : bool)
| FLiteral
| FPld (p : place_form)
| FHalf (k : half_kind) (p : place_form)
| FHalfAbs
| FBlock (load : bool)
| FPush | FPop
| FSwp (byte two : bool)
| FSwi | FBkpt
| FCop (k : cop_kind) (u inf : bool)
| FClz
| FSat (op : Z) (two : bool).

Local Open Scope string_scope.
Definition mem_name (name : string) : option (bool * bool * bool) :=
  if name =? "strC" then Some (false, false, false) else if name =? "ldrC" then Some (true, false, false)
  else if name =? "strCb" then Some (false, true, false) else if name =? "ldrCb" then Some (true, true, false)
  else if name =? "strCt" then Some (false, false, true) else if name =? "ldrCt" then Some (true, false, true)
  else if name =? "strCbt" then Some (false, true, true) else if name =? "ldrCbt" then Some (true, true, true)
  else None.
Definition half_name (name : string) : option half_kind :=
  if name =? "strCh" then Some HStrh else if name =? "ldrCh" then Some HLdrh
  else if (name =? "ldrCsb") || (name =? "ldCsb") then Some HLdrsb
  else if (name =? "ldrCsh") || (name =? "ldCsh") then Some HLdrsh
  else if name =? "ldrCd" then Some HLdrd else if name =? "strCd" then Some HStrd else None.
Definition mull_name (name : string) : option (bool * bool) :=
  if name =? "umullCS" then Some (false, false) else if name =? "umlalCS" then Some (false, true)
  else if name =? "smullCS" then Some (true, false) else if name =? "smlalCS" then Some (true, true) else None.
Definition sat_name (name : string) : option Z :=
  if name =? "qaddC" then Some 0%Z else if name =? "qsubC" then Some 1%Z
  else if name =? "qdaddC" then Some 2%Z else if name =? "qdsubC" then Some 3%Z else None.
Definition j12 : string := "/#j" ++ String (ascii_of_nat 12) "".
Definition j8 : string := "/#j" ++ String (ascii_of_nat 8) "".
(** The forms of single and halfword transfers, by operand syntax. *)
Definition mem_place (mask : string) : option place_form :=
  if mask =? "d0,[n0]" then Some (PlBase false) else if mask =? "d0,[n0]!" then Some (PlBase true)
  else if mask =? "d0,[n0,vm1S1]W" then Some (PlReg false) else if mask =? "d0,[n0],vm1S1" then Some (PlReg true)
  else if mask =? "d0,[n0," ++ j12 ++ "]W" then Some (PlImm false) else if mask =? "d0,[n0]," ++ j12 then Some (PlImm true)
  else None.
Definition pld_place (mask : string) : option place_form :=
  if mask =? "[n0]" then Some (PlBase false) else if mask =? "[n0,vm1S1]" then Some (PlReg false)
  else if mask =? "[n0," ++ j12 ++ "]" then Some (PlImm false) else None.
Definition half_place (mask : string) : option place_form :=
  if mask =? "d0,[n0]" then Some (PlBase false)
  else if (mask =? "d0,[n0,vm1]W") || (mask =? "d0,[n0,m1]") then Some (PlReg false)
  else if mask =? "d0,[n0],vm1" then Some (PlReg true)
  else if (mask =? "d0,[n0," ++ j8 ++ "]W") || (mask =? "d0,[n0," ++ j8 ++ "]") then Some (PlImm false)
  else if mask =? "d0,[n0]," ++ j8 then Some (PlImm true)
  else None.

Definition other_form (name mask : string) : option aform :=
  if (name =? "bxC") && (mask =? "n1") then Some (FBx false)
  else if (name =? "blxC") && (mask =? "n1") then Some (FBx true)
  else if (name =? "nop") && (mask =? "") then Some FNop
  else if ((name =? "addCS") || (name =? "subCS")) && (mask =? "d1,=/#I") then Some FAdr
  else if (name =? "adrCS") && (mask =? "d1,/#I") then Some FAdr
  else if ((name =? "msrC") || (name =? "movC")) && (mask =? "P0,m1") then Some (FMsr false)
  else if ((name =? "msrC") || (name =? "movC")) && (mask =? "P0,/#i") then Some (FMsr true)
  else if ((name =? "mrsC") || (name =? "movC")) && (mask =? "d1,P1") then Some FMrs
  else if (name =? "mulCS") && (mask =? "d1,m1,s1") then Some (FMul false false)
  else if (name =? "mulCS") && (mask =? "d1,s1") then Some (FMul false true)
  else if (name =? "mlaCS") && (mask =? "d1,m1,s1,n1") then Some (FMul true false)
  else if (name =? "mlaCS") && (mask =? "d1,s1,n1") then Some (FMul true true)
  else if (name =? "smlaXYC") && (mask =? "d1,m1,s1,n1") then Some FSmla
  else if (name =? "smlawYC") && (mask =? "d1,m1,s1,n1") then Some FSmlaw
  else if (name =? "smulwYC") && (mask =? "d1,m1,s1") then Some FSmulw
  else if (name =? "smlalXYC") && (mask =? "n1,d1,m1,s1") then Some FSmlal
  else if (name =? "smulXYC") && (mask =? "d1,m1,s1") then Some FSmul
  else if (name =? "ldrC") && (mask =? "d0,[" ++ j12 ++ "]") then Some (FMemAbs true)
  else if (name =? "strC") && (mask =? "d0,[" ++ j12 ++ "]") then Some (FMemAbs false)
  else if (name =? "ldrC") && (mask =? "d0,=/#i") then Some FLiteral
  else if (name =? "strCh") && (mask =? "d0,[" ++ j8 ++ "]") then Some FHalfAbs
  else if (name =? "stmCA") && (mask =? "/[n1/]W,/{R/}p") then Some (FBlock false)
  else if (name =? "ldmCA") && (mask =? "/[n1/]W,/{R/}p") then Some (FBlock true)
  else if (name =? "pushC") && (mask =? "/{R/}") then Some FPush
  else if (name =? "popC") && (mask =? "/{R/}") then Some FPop
  else if ((name =? "swpC") || (name =? "swpCb")) && (mask =? "d1,m1,[n1]") then Some (FSwp (name =? "swpCb") false)
  else if ((name =? "swpC") || (name =? "swpCb")) && (mask =? "d1,[n1]") then Some (FSwp (name =? "swpCb") true)
  else if (name =? "swiC") && (mask =? "/#j" ++ String (ascii_of_nat 24) "") then Some FSwi
  else if (name =? "bkpt") && (mask =? "/#j" ++ String (ascii_of_nat 16) "") then Some FBkpt
  else if (name =? "clzC") && (mask =? "d1,m1") then Some FClz
  else None.

(** The instruction a source line asks for, by mnemonic and operand syntax (the notation for both is
    explained at the head of Archs/ARM/ArmOpcodes.cpp). *)
Definition arm_form (name mask : string) : option aform :=
  match branch_form name mask, dp_imm_form name mask, dp_reg_form name mask, cop_form name mask with
  | Some k, _, _, _ => Some (FBranch k)
  | _, Some (opc, sn, sd), _, _ => Some (FDpImm opc sn sd)
  | _, _, Some (opc, sn, sd, sm), _ => Some (FDpReg opc sn sd sm)
  | _, _, _, Some (k, u, inf) => Some (FCop k u inf)
  | _, _, _, _ =>
    match mem_name name, mem_place mask, half_name name, half_place mask with
    | Some (l, b, t), Some p, _, _ => Some (FMem l b t p)
    | _, _, Some k, Some p => Some (FHalf k p)
    | _, _, _, _ =>
      match mull_name name, sat_name name with
      | Some (s, a), _ => if mask =? "n1,d1,m1,s1" then Some (FMull s a) else None
      | _, Some op => if mask =? "d1,m1,n1" then Some (FSat op false)
                      else if mask =? "d1,n1" then Some (FSat op true) else None
      | _, _ =>
        if name =? "pld" then option_map FPld (pld_place mask) else other_form name mask
      end
    end
  end.
Local Close Scope string_scope.

(** The operands of a source line. *)
Inductive wshift := WNone | WImm (ty n : Z) | WReg (ty r : Z).
Record aops := mkAops {
  q_cond : Z; q_s : bool; q_mode : Z; q_x : bool; q_y : bool;
  q_rd : Z; q_rn : Z; q_rm : Z; q_rs : Z;
  q_shift : wshift;
  q_imm : Z;                       (* the 32-bit value of the immediate, unsigned *)
  q_spsr : bool; q_field : Z;
  q_minus : bool; q_wb : bool; q_user : bool; q_list : Z;
  q_cp : Z; q_crd : Z; q_crn : Z; q_crm : Z; q_opc1 : Z; q_opc2 : Z;
  q_short : bool }.                (* GBA and NDS: numbers of BIOS functions go to bits 16..23 *)

Definition q_sel (s : rsel) (q : aops) : Z := match s with SelNone => 0 | SelRd => q_rd q | SelRn => q_rn q end.
Definition q_msel (s : msel) (q : aops) : Z := match s with SelRm => q_rm q | SelRdM => q_rd q end.

(** A constant shift does what was written. *)
Definition shift_means (q : wshift) (sh : shift_op) : Prop :=
  match q with
  | WNone => sh = ShLSL 0
  | WImm ty n => exists w, written_shift ty n = Some w /\ shift_same sh w
  | WReg _ _ => False
  end.
Definition place_index (p : place_form) (user : bool) (q : aops) : index :=
  let post := if user then IxPostUser else IxPost in
  match p with
  | PlBase true => IxPre
  | PlBase false => if user then IxPostUser else IxOffset
  | PlReg true | PlImm true => post
  | PlReg false | PlImm false => if q_wb q then IxPre else IxOffset
  end.
Definition place_offset (p : place_form) (q : aops) (off : offset) : Prop :=
  match p with
  | PlBase _ => off = OffImm 0
  | PlReg _ => exists sh, off = OffReg (q_minus q) (q_rm q) sh /\ shift_means (q_shift q) sh
  | PlImm _ => exists z, off = OffImm z /\ u32 z = q_imm q
  end.
(** Addressing modes of block transfers, ib ia db da and the stack names ed fd ea fa: address before
    each access?, upwards? *)
Definition block_before (load : bool) (m : Z) : bool :=
  match m with
  | 0 | 2 => true | 1 | 3 => false          (* ib db, ia da *)
  | 4 | 6 => load                           (* ed: ldm ib, stm da; ea: ldm db, stm ia *)
  | _ => negb load                          (* fd: ldm ia, stm db; fa: ldm da, stm ib *)
  end.
Definition block_up (load : bool) (m : Z) : bool :=
  match m with
  | 0 | 1 => true | 2 | 3 => false          (* ib ia, db da *)
  | 4 | 5 => load                           (* ed fd *)
  | _ => negb load                          (* ea fa *)
  end.

(** The number of a software interrupt as it goes into the instruction. *)
Definition swi_number (q : aops) : Z := if q_short q && (q_imm q <? 255) then q_imm q * 65536 else q_imm q.

(** [arm_means f q addr lit pool a]: the instruction [a] at [addr] does what the line of form [f] with
    operands [q] asks for.  [lit] is the word the line adds to the literal pool, if any, and [pool] the
    address of that word. *)
Definition arm_means (f : aform) (q : aops) (addr : Z) (lit : option Z) (pool : Z) (a : ainstr) : Prop :=
  let c := q_cond q in
  match f with
  | FLiteral =>
      (lit = None /\ exists opc v, a = ADp c opc false 0 (q_rd q) (OpImm v) /\ dp_same 13 (q_imm q) opc v) \/
      (exists x z, lit = Some x /\ u32 x = q_imm q /\ a = AMem c true false IxOffset 15 (q_rd q) (OffImm z) /\
         u32 (addr + 8 + z) = u32 pool)
  | _ => lit = None /\
  match f with
  | FLiteral => False
  | FBx link => a = ABx c link (q_rn q)
  | FBranch k => a = ABranch k (match k with BrBLX => 15 | _ => c end) (q_imm q)
  | FDpImm opc sn sd => exists opc' v,
      a = ADp c opc' (q_s q || negb (dp_writes opc)) (q_sel sn q) (q_sel sd q) (OpImm v) /\ dp_same opc (q_imm q) opc' v
  | FDpReg opc sn sd sm => exists op2,
      a = ADp c opc (q_s q || negb (dp_writes opc)) (q_sel sn q) (q_sel sd q) op2 /\
      match q_shift q with
      | WReg ty r => op2 = OpShiftReg (q_msel sm q) ty r
      | s => exists sh, op2 = OpShift (q_msel sm q) sh /\ shift_means s sh
      end
  | FNop => exists cond r, a = ADp cond 13 false 0 r (OpShift r (ShLSL 0))
  | FAdr => exists opc v, a = ADp c opc (q_s q) 15 (q_rd q) (OpImm v) /\
      ((opc = 4 /\ u32 (addr + 8 + v) = q_imm q) \/ (opc = 2 /\ u32 (addr + 8 - v) = q_imm q))
  | FMsr imm => a = AMsr c (q_spsr q) (q_field q) (if imm then OpImm (q_imm q) else OpShift (q_rm q) (ShLSL 0))
  | FMrs => a = AMrs c (q_spsr q) (q_rd q)
  | FMul acc two => a = AMul c (q_s q) (q_rd q) (if two then q_rd q else q_rm q) (q_rs q)
                             (if acc then Some (q_rn q) else None)
  | FMull signed acc => a = AMull c signed acc (q_s q) (q_rd q) (q_rn q) (q_rm q) (q_rs q)
  | FSmla => a = ASmla c (q_x q) (q_y q) (q_rd q) (q_rm q) (q_rs q) (q_rn q)
  | FSmlaw => a = ASmlaw c (q_y q) (q_rd q) (q_rm q) (q_rs q) (q_rn q)
  | FSmulw => a = ASmulw c (q_y q) (q_rd q) (q_rm q) (q_rs q)
  | FSmlal => a = ASmlal c (q_x q) (q_y q) (q_rd q) (q_rn q) (q_rm q) (q_rs q)
  | FSmul => a = ASmul c (q_x q) (q_y q) (q_rd q) (q_rm q) (q_rs q)
  | FMem load byte user p => exists off,
      a = AMem c load byte (place_index p user q) (q_rn q) (q_rd q) off /\ place_offset p q off
  | FMemAbs load => exists z, a = AMem c load false IxOffset 15 (q_rd q) (OffImm z) /\ u32 (addr + 8 + z) = q_imm q
  | FPld p => exists off, a = APld (q_rn q) off /\ place_offset p q off
  | FHalf k p => exists off, a = AHalf c k (place_index p false q) (q_rn q) (q_rd q) off /\ place_offset p q off
  | FHalfAbs => exists z, a = AHalf c HStrh IxOffset 15 (q_rd q) (OffImm z) /\ u32 (addr + 8 + z) = q_imm q
  | FBlock load => a = ABlock c load (block_before load (q_mode q)) (block_up load (q_mode q))
                              (q_user q) (q_wb q) (q_rn q) (q_list q)
  | FPush => a = ABlock c false true false false true 13 (q_list q)
  | FPop => a = ABlock c true false true false true 13 (q_list q)
  | FSwp byte two => a = ASwp c byte (q_rd q) (if two then q_rd q else q_rm q) (q_rn q)
  | FSwi => a = ASwi c (swi_number q)
  | FBkpt => a = ABkpt (q_imm q)
  | FCop k u _ => a = ACop (cop_build k (if u then 15 else c) (q_opc1 q) (q_opc2 q) (q_cp q) (q_crd q) (q_crn q) (q_crm q)
                                      (q_rd q) (q_rn q))
  | FClz => a = AClz c (q_rd q) (q_rm q)
  | FSat op two => a = ASat c op (q_rd q) (if two then q_rd q else q_rm q) (q_rn q)
  end
  end.

(** * Which lines have an instruction *)

(** Distance from the program counter (address + 8) to the 32-bit address [t]. *)
Definition pc_distance (addr t : Z) : Z := s32 (t - addr - 8).
Definition shift_fits (s : wshift) : Prop :=
  match s with WNone => True | WImm ty n => exists sh, written_shift ty n = Some sh | WReg _ _ => True end.
Definition place_fits (p : place_form) (q : aops) (low high : Z) (int : bool) : Prop :=
  match p with
  | PlBase _ => True
  | PlReg _ => shift_fits (q_shift q)
  | PlImm _ => int = true /\ low <= s32 (q_imm q) <= high
  end.
(** The operands are in range; [int]: the immediate is a whole number and not a floating point number
    (which stands for its 32 bits and is meant for constants). *)
Definition arm_fits (f : aform) (q : aops) (addr pool : Z) (int : bool) : Prop :=
  match f with
  | FBranch k => int = true /\ q_imm q mod branch_align k = 0 /\ Z.abs (pc_distance addr (q_imm q)) < 33554432
  | FDpImm opc _ _ => arm_encodable (q_imm q) \/
      exists opc' v, dp_complement opc (q_imm q) = Some (opc', v) /\ arm_encodable v
  | FDpReg _ _ _ _ => shift_fits (q_shift q)
  | FAdr => arm_encodable (Z.abs (pc_distance addr (q_imm q)))
  | FMsr true => arm_encodable (q_imm q)
  | FMem _ _ _ p | FPld p => place_fits p q (-4095) 4095 int
  | FMemAbs _ => int = true /\ Z.abs (pc_distance addr (q_imm q)) < 4096
  | FLiteral => arm_encodable (q_imm q) \/ arm_encodable (not32 (q_imm q)) \/ Z.abs (pc_distance addr pool) < 4096
  | FHalf (HLdrd | HStrd) p => place_fits p q 0 255 int
  | FHalf _ p => place_fits p q (-255) 255 int
  | FHalfAbs => int = true /\ Z.abs (pc_distance addr (q_imm q)) < 256
  | FSwi => int = true /\ swi_number q < 16777216
  | FBkpt => int = true /\ q_imm q < 65536
  | FCop _ _ _ => q_opc1 q <= 15 /\ q_opc2 q <= 7
  | _ => True
  end.

(** * What the syntax of a form provides for *)

(** The S suffix, a shifted operand, the sign of a register, the write-back mark, an immediate operand. *)
Definition takes_s (f : aform) : bool :=
  match f with
  | FDpImm opc _ _ | FDpReg opc _ _ _ => dp_writes opc
  | FAdr | FMul _ _ | FMull _ _ => true
  | _ => false
  end.
Definition takes_shift (f : aform) : bool :=
  match f with
  | FDpReg _ _ _ _ | FMem _ _ _ (PlReg _) | FPld (PlReg _) => true
  | _ => false
  end.
Definition takes_sign (f : aform) : bool :=
  match f with FMem _ _ _ (PlReg _) | FPld (PlReg _) | FHalf HStrh (PlReg _) => true | _ => false end.
Definition takes_wb (f : aform) : bool :=
  match f with
  | FMem _ _ _ (PlReg false) | FMem _ _ _ (PlImm false) | FBlock _ => true
  | FHalf HStrh (PlReg false) | FHalf HStrh (PlImm false) => true
  | _ => false
  end.
Definition takes_imm (f : aform) : bool :=
  match f with
  | FBranch _ | FDpImm _ _ _ | FAdr | FMsr true | FMemAbs _ | FLiteral | FHalfAbs | FSwi | FBkpt => true
  | FMem _ _ _ (PlImm _) | FPld (PlImm _) | FHalf _ (PlImm _) => true
  | _ => false
  end.
(** Bits of the immediate operand. *)
Definition imm_len (f : aform) : Z :=
  match f with
  | FMem _ _ _ _ | FMemAbs _ | FPld _ => 12
  | FHalf _ _ | FHalfAbs => 8
  | FSwi => 24
  | FBkpt => 16
  | _ => 32
  end.
