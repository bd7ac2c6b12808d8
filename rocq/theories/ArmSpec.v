(** Specification side for the ARM encoder: the A32 instruction format as documented in the ARM
    Architecture Reference Manual, and the meaning of data-processing instructions.  Nothing here
    refers to the model of the assembler. *)

Require Import ZArith Bool List String.
Require Import Verif.Ints.
Import ListNotations.
Local Open Scope Z_scope.

(** Rotate right on 32 bits, for [0 <= x < 2^32] and [0 <= n < 32]. *)
Definition ror32 (x n : Z) : Z := x / 2 ^ n + (x mod 2 ^ n) * 2 ^ (32 - n).

(** [ARMExpandImm]: an 8-bit value rotated right by twice the 4-bit rotation field. *)
Definition arm_expand_imm (imm12 : Z) : Z := ror32 (imm12 mod 256) (2 * (imm12 / 256)).

(** The constants a data-processing instruction can hold. *)
Definition arm_encodable (v : Z) : Prop :=
  exists b r, 0 <= b < 256 /\ 0 <= r < 16 /\ v = ror32 b (2 * r).

(** Data-processing instruction with immediate operand: bits 27..25 = 001. *)
Record dp_imm := mkDpImm {
  dp_cond : Z; dp_opc : Z; dp_s : bool; dp_rn : Z; dp_rd : Z; dp_val : Z }.
Definition decode_dp_imm (w : Z) : option dp_imm :=
  if bits w 25 3 =? 1 then
    Some (mkDpImm (bits w 28 4) (bits w 21 4) (bits w 20 1 =? 1) (bits w 16 4) (bits w 12 4)
                  (arm_expand_imm (bits w 0 12)))
  else None.

(** Result and flags of a data-processing instruction on 32-bit operands [a] (rn) and [b] (operand 2)
    with carry-in [c]. Opcodes 8..11 (tst teq cmp cmn) write no register. *)
Record dp_out := mkDpOut { r_result : Z; r_n : bool; r_z : bool; r_c : option bool; r_v : option bool }.
(** [AddWithCarry] of the reference manual. *)
Definition add_with_carry (x y : Z) (c : bool) : dp_out :=
  let cin := if c then 1 else 0 in
  let r := u32 (x + y + cin) in
  mkDpOut r (r >=? 2147483648) (r =? 0)
          (Some (negb (r =? x + y + cin)))
          (Some (negb (s32 r =? s32 x + s32 y + cin))).
Definition not32 (x : Z) : Z := 4294967295 - x.
(** Logical operations: C is the shifter carry and V is unchanged; both are left out ([None]). *)
Definition logical (r : Z) : dp_out := mkDpOut r (r >=? 2147483648) (r =? 0) None None.
Definition dp_exec (opc a b : Z) (c : bool) : option dp_out :=
  match opc with
  | 0 | 8 => Some (logical (Z.land a b))
  | 1 | 9 => Some (logical (Z.lxor a b))
  | 2 | 10 => Some (add_with_carry a (not32 b) true)
  | 3 => Some (add_with_carry (not32 a) b true)
  | 4 | 11 => Some (add_with_carry a b false)
  | 5 => Some (add_with_carry a b c)
  | 6 => Some (add_with_carry a (not32 b) c)
  | 7 => Some (add_with_carry (not32 a) b c)
  | 12 => Some (logical (Z.lor a b))
  | 13 => Some (logical b)
  | 14 => Some (logical (Z.land a (not32 b)))
  | 15 => Some (logical (not32 b))
  | _ => None
  end.
Definition dp_writes (opc : Z) : bool := negb ((8 <=? opc) && (opc <=? 11)).

(** Two data-processing instructions do the same for every operand value and carry. *)
Definition dp_same (opc b opc' b' : Z) : Prop :=
  dp_writes opc = dp_writes opc' /\
  forall a c, 0 <= a < 4294967296 ->
    exists r, dp_exec opc a b c = Some r /\ dp_exec opc' a b' c = Some r.

(** The assembly-language forms [<op> rd,rn,#imm], [<op> rd,#imm] (= rd,rd,#imm), [<cmp> rn,#imm] and
    [mov/mvn rd,#imm], by mnemonic and operand syntax of the source line.  Result: opcode number,
    which source operands give rn and rd. *)
Inductive rsel := SelNone | SelRd | SelRn.
Local Open Scope string_scope.
Definition dp3 (name : string) : option Z :=
  if name =? "andCS" then Some 0%Z else if name =? "eorCS" then Some 1%Z
  else if name =? "xorCS" then Some 1%Z else if name =? "subCS" then Some 2%Z
  else if name =? "rsbCS" then Some 3%Z else if name =? "addCS" then Some 4%Z
  else if name =? "adcCS" then Some 5%Z else if name =? "sbcCS" then Some 6%Z
  else if name =? "rscCS" then Some 7%Z else if name =? "orrCS" then Some 12%Z
  else if name =? "bicCS" then Some 14%Z else None.
Definition dp_cmp (name : string) : option Z :=
  if name =? "tstC" then Some 8%Z else if name =? "teqC" then Some 9%Z
  else if name =? "cmpC" then Some 10%Z else if name =? "cmnC" then Some 11%Z else None.
Definition dp_mov (name : string) : option Z :=
  if name =? "movCS" then Some 13%Z else if name =? "mvnCS" then Some 15%Z else None.
Definition dp_imm_form (name mask : string) : option (Z * rsel * rsel) :=
  match dp3 name, dp_cmp name, dp_mov name with
  | Some o, _, _ => if mask =? "d0,n0,/#i" then Some (o, SelRn, SelRd)
                    else if mask =? "d0,/#i" then Some (o, SelRd, SelRd) else None
  | _, Some o, _ => if mask =? "n0,/#i" then Some (o, SelRn, SelNone) else None
  | _, _, Some o => if mask =? "d0,/#i" then Some (o, SelNone, SelRd) else None
  | _, _, _ => None
  end.
Local Close Scope string_scope.

(** The complementary instruction that does the same with another immediate. *)
Definition dp_complement (opc v : Z) : option (Z * Z) :=
  match opc with
  | 13 => Some (15, not32 v) | 15 => Some (13, not32 v)
  | 0 => Some (14, not32 v) | 14 => Some (0, not32 v)
  | 10 => Some (11, u32 (- v)) | 11 => Some (10, u32 (- v))
  | 4 => Some (2, u32 (- v)) | 2 => Some (4, u32 (- v))
  | _ => None
  end.

(** Branches: [B]/[BL] (cond 101L imm24) and [BLX] (1111 101H imm24); target address on 32 bits. *)
Inductive br_kind := BrB | BrBL | BrBLX.
Definition sign_extend (n x : Z) : Z := if x <? 2 ^ (n - 1) then x else x - 2 ^ n.
Definition decode_branch (addr w : Z) : option (br_kind * Z * Z) :=
  if bits w 25 3 =? 5 then
    let off := 4 * sign_extend 24 (bits w 0 24) in
    if bits w 28 4 =? 15 then
      Some (BrBLX, 15, u32 (addr + 8 + off + 2 * bits w 24 1))
    else if bits w 24 1 =? 1 then Some (BrBL, bits w 28 4, u32 (addr + 8 + off))
    else Some (BrB, bits w 28 4, u32 (addr + 8 + off))
  else None.

(** Branch mnemonics of the source language. *)
Definition branch_form (name mask : string) : option br_kind :=
  (if mask =? "/#I" then
     if name =? "bC" then Some BrB else if name =? "blC" then Some BrBL
     else if name =? "blx" then Some BrBLX else None
   else None)%string.
(** Alignment a branch target needs: BLX goes to Thumb code. *)
Definition branch_align (k : br_kind) : Z := match k with BrBLX => 2 | _ => 4 end.

(** Shifted register operand: immediate shifts, [DecodeImmShift] of the reference manual. *)
Inductive shift_op := ShLSL (n : Z) | ShLSR (n : Z) | ShASR (n : Z) | ShROR (n : Z) | ShRRX.
Definition decode_imm_shift (ty imm5 : Z) : shift_op :=
  match ty with
  | 0 => ShLSL imm5
  | 1 => ShLSR (if imm5 =? 0 then 32 else imm5)
  | 2 => ShASR (if imm5 =? 0 then 32 else imm5)
  | _ => if imm5 =? 0 then ShRRX else ShROR imm5
  end.
(** Value of a shifted operand (carry-in [c] for RRX). *)
Definition shift_value (s : shift_op) (x : Z) (c : bool) : Z :=
  match s with
  | ShLSL n => u32 (x * 2 ^ n)
  | ShLSR n => x / 2 ^ n
  | ShASR n => u32 (s32 x / 2 ^ n)
  | ShROR n => ror32 x (n mod 32)
  | ShRRX => x / 2 + (if c then 2147483648 else 0)
  end.
(** Data processing with an immediate-shifted register: 000 opc S rn rd imm5 type 0 rm. *)
Record dp_reg := mkDpReg {
  dr_cond : Z; dr_opc : Z; dr_s : bool; dr_rn : Z; dr_rd : Z; dr_shift : shift_op; dr_rm : Z }.
Definition decode_dp_reg (w : Z) : option dp_reg :=
  if (bits w 25 3 =? 0) && (bits w 4 1 =? 0) then
    Some (mkDpReg (bits w 28 4) (bits w 21 4) (bits w 20 1 =? 1) (bits w 16 4) (bits w 12 4)
                  (decode_imm_shift (bits w 5 2) (bits w 7 5)) (bits w 0 4))
  else None.
(** Data processing with a register-shifted register: 000 opc S rn rd rs 0 type 1 rm. *)
Record dp_rsr := mkDpRsr {
  ds_cond : Z; ds_opc : Z; ds_s : bool; ds_rn : Z; ds_rd : Z; ds_type : Z; ds_rs : Z; ds_rm : Z }.
Definition decode_dp_rsr (w : Z) : option dp_rsr :=
  if (bits w 25 3 =? 0) && (bits w 4 1 =? 1) && (bits w 7 1 =? 0) then
    Some (mkDpRsr (bits w 28 4) (bits w 21 4) (bits w 20 1 =? 1) (bits w 16 4) (bits w 12 4)
                  (bits w 5 2) (bits w 8 4) (bits w 0 4))
  else None.
(** Single data transfer with an immediate-shifted register offset: 011 P U B W L rn rd imm5 type 0 rm. *)
Record mem_reg := mkMemReg {
  mr_cond : Z; mr_p : bool; mr_u : bool; mr_b : bool; mr_w : bool; mr_l : bool;
  mr_rn : Z; mr_rd : Z; mr_shift : shift_op; mr_rm : Z }.
Definition decode_mem_reg (w : Z) : option mem_reg :=
  if (bits w 25 3 =? 3) && (bits w 4 1 =? 0) then
    Some (mkMemReg (bits w 28 4) (bits w 24 1 =? 1) (bits w 23 1 =? 1) (bits w 22 1 =? 1)
                   (bits w 21 1 =? 1) (bits w 20 1 =? 1) (bits w 16 4) (bits w 12 4)
                   (decode_imm_shift (bits w 5 2) (bits w 7 5)) (bits w 0 4))
  else None.

(** The constant shift written in the source: mnemonic 0..4 = lsl lsr asr ror rrx, amount [n].  The
    amount 0 means no shift; rrx is written with amount 1. [None]: not a shift of the instruction set. *)
Definition written_shift (ty n : Z) : option shift_op :=
  match ty with
  | 0 => if (0 <=? n) && (n <=? 31) then Some (ShLSL n) else None
  | 1 => if (0 <=? n) && (n <=? 32) then Some (ShLSR n) else None
  | 2 => if (0 <=? n) && (n <=? 32) then Some (ShASR n) else None
  | 3 => if (0 <=? n) && (n <=? 31) then Some (ShROR n) else None
  | 4 => if n =? 1 then Some ShRRX else None
  | _ => None
  end.
Definition shift_same (a b : shift_op) : Prop :=
  forall x c, 0 <= x < 4294967296 -> shift_value a x c = shift_value b x c.

(** Register forms of the data-processing instructions and their shift aliases
    ([lsl rd,rm,#n] = [mov rd,rm,lsl #n]): opcode, rn, rd, rm. *)
Inductive msel := SelRm | SelRdM.
Local Open Scope string_scope.
Definition shift_alias (name : string) : option Z :=
  if name =? "lslCS" then Some 0%Z else if name =? "lsrCS" then Some 1%Z
  else if name =? "asrCS" then Some 2%Z else if name =? "rorCS" then Some 3%Z else None.
Definition dp_reg_form (name mask : string) : option (Z * rsel * rsel * msel) :=
  match shift_alias name with
  | Some t =>
      let z := "z" ++ String (Ascii.ascii_of_nat (Z.to_nat t)) EmptyString in
      if mask =? "d0,m0," ++ z then Some (13%Z, SelNone, SelRd, SelRm)
      else if mask =? "d0," ++ z then Some (13%Z, SelNone, SelRd, SelRdM) else None
  | None =>
    match dp3 name, dp_cmp name, dp_mov name with
    | Some o, _, _ => if mask =? "d0,n0,m0S0" then Some (o, SelRn, SelRd, SelRm)
                      else if mask =? "d0,m0S0" then Some (o, SelRd, SelRd, SelRm) else None
    | _, Some o, _ => if mask =? "n0,m0S0" then Some (o, SelRn, SelNone, SelRm) else None
    | _, _, Some o => if mask =? "d0,m0S0" then Some (o, SelNone, SelRd, SelRm) else None
    | _, _, _ => None
    end
  end.
(** Loads and stores with (shifted) register offset: load?, byte?, pre-indexed?, forced write-back
    (the "t" forms), write-back suffix allowed?, conditional?. *)
Record mem_form := mkMemForm { mf_load : bool; mf_byte : bool; mf_pre : bool; mf_t : bool;
                               mf_wb : bool; mf_pld : bool }.
Definition mem_reg_form (name mask : string) : option mem_form :=
  let kind := if name =? "strC" then Some (false, false, false) else if name =? "ldrC" then Some (true, false, false)
    else if name =? "strCb" then Some (false, true, false) else if name =? "ldrCb" then Some (true, true, false)
    else if name =? "strCt" then Some (false, false, true) else if name =? "ldrCt" then Some (true, false, true)
    else if name =? "strCbt" then Some (false, true, true) else if name =? "ldrCbt" then Some (true, true, true)
    else None in
  match kind with
  | Some (l, b, t) =>
      if mask =? "d0,[n0,vm1S1]W" then Some (mkMemForm l b true t true false)
      else if mask =? "d0,[n0],vm1S1" then Some (mkMemForm l b false t false false)
      else None
  | None =>
      if (name =? "pld") && (mask =? "[n0,vm1S1]") then Some (mkMemForm true true true false false true)
      else None
  end.
Local Close Scope string_scope.

(** Coprocessor instructions. *)
Inductive cop_instr :=
| CDP (cond opc1 crn crd cp opc2 crm : Z)
| MCR (cond opc1 crn rd cp opc2 crm : Z)
| MRC (cond opc1 crn rd cp opc2 crm : Z)
| MCRR (cond opc rn rd cp crm : Z)
| MRRC (cond opc rn rd cp crm : Z).
Definition decode_cop (w : Z) : option cop_instr :=
  if bits w 24 4 =? 14 then
    if bits w 4 1 =? 0 then
      Some (CDP (bits w 28 4) (bits w 20 4) (bits w 16 4) (bits w 12 4) (bits w 8 4) (bits w 5 3) (bits w 0 4))
    else if bits w 20 1 =? 0 then
      Some (MCR (bits w 28 4) (bits w 21 3) (bits w 16 4) (bits w 12 4) (bits w 8 4) (bits w 5 3) (bits w 0 4))
    else
      Some (MRC (bits w 28 4) (bits w 21 3) (bits w 16 4) (bits w 12 4) (bits w 8 4) (bits w 5 3) (bits w 0 4))
  else if bits w 20 8 =? 196 then
    Some (MCRR (bits w 28 4) (bits w 4 4) (bits w 16 4) (bits w 12 4) (bits w 8 4) (bits w 0 4))
  else if bits w 20 8 =? 197 then
    Some (MRRC (bits w 28 4) (bits w 4 4) (bits w 16 4) (bits w 12 4) (bits w 8 4) (bits w 0 4))
  else None.

(** The coprocessor instructions of the source language: kind, unconditional ("2") form, whether the
    source has the opc2 operand. *)
Inductive cop_kind := KCdp | KMcr | KMrc | KMcrr | KMrrc.
Definition cop_form (name mask : string) : option (cop_kind * bool * bool) :=
  (let k := if (name =? "cdpC") then Some (KCdp, false) else if name =? "cdp2" then Some (KCdp, true)
           else if name =? "mcrC" then Some (KMcr, false) else if name =? "mcr2" then Some (KMcr, true)
           else if name =? "mrcC" then Some (KMrc, false) else if name =? "mrc2" then Some (KMrc, true)
           else if name =? "mcrrC" then Some (KMcrr, false) else if name =? "mrrcC" then Some (KMrrc, false)
           else None in
   if (name =? "movC") && (mask =? "X,Y,N,M,Z,d1") then Some (KMcr, false, true)
   else if (name =? "movC") && (mask =? "d1,X,Y,N,M,Z") then Some (KMrc, false, true)
   else match k with
        | None => None
        | Some (k, u) =>
            match k with
            | KCdp => if mask =? "X,Y,D,N,M" then Some (k, u, false) else if mask =? "X,Y,D,N,M,Z" then Some (k, u, true) else None
            | KMcr | KMrc => if mask =? "X,Y,d1,N,M" then Some (k, u, false) else if mask =? "X,Y,d1,N,M,Z" then Some (k, u, true) else None
            | KMcrr | KMrrc => if mask =? "X,Y,d1,n1,M" then Some (k, u, false) else None
            end
        end)%string.
(** Largest value of the opc1 operand. *)
Definition cop_opc_max (k : cop_kind) : Z := match k with KMcr | KMrc => 7 | _ => 15 end.
Definition cop_build (k : cop_kind) (cond opc1 opc2 cp crd crn crm rd rn : Z) : cop_instr :=
  match k with
  | KCdp => CDP cond opc1 crn crd cp opc2 crm
  | KMcr => MCR cond opc1 crn rd cp opc2 crm
  | KMrc => MRC cond opc1 crn rd cp opc2 crm
  | KMcrr => MCRR cond opc1 rn rd cp crm
  | KMrrc => MRRC cond opc1 rn rd cp crm
  end.
