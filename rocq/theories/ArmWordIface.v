(** Vocabulary connecting parsed ARM lines with the specification of whole words. *)

Require Import ZArith Bool List String Ascii.
Require Import Verif.Ints Verif.Res Verif.ArmModel Verif.ArmSpec Verif.ArmIface Verif.ArmWordSpec.
Local Open Scope Z_scope.

(** Only what the syntax of the row provides for is set. *)
Definition line_wf (i : arm_in) (f : aform) : Prop :=
  arm_in_wf i /\ 0 <= i_shift_type i <= 4 /\
  (takes_s f = false -> i_s i = false) /\
  (takes_shift f = false -> i_use_shift i = false) /\
  (takes_wb f = false -> i_writeback i = false) /\
  (match f with FBlock _ => True | _ => i_psr i = false end) /\
  (match f with FMem _ _ _ _ | FPld _ => i_use_shift i = true -> i_shift_byreg i = false | _ => True end) /\
  (takes_imm f = true -> i_bitlen i = imm_len f).

Definition shift_of (i : arm_in) (e : arm_eval) (s : wshift) : Prop :=
  if i_use_shift i then
    if i_shift_byreg i then s = WReg (i_shift_type i) (i_shift_reg i)
    else exists n, e_shift e = Some n /\ s = WImm (i_shift_type i) n
  else s = WNone.
(** The operands that the parsed line stands for. *)
Definition agrees (i : arm_in) (e : arm_eval) (f : aform) (q : aops) : Prop :=
  (q_cond q = i_c i /\ q_s q = i_s i /\ q_mode q = i_a i /\ q_x q = i_x i /\ q_y q = i_y i) /\
  (q_rd q = i_rd i /\ q_rn q = i_rn i /\ q_rm q = i_rm i /\ q_rs q = i_rs i) /\
  (q_spsr q = i_spsr i /\ q_field q = i_field i /\ q_minus q = takes_sign f && negb (i_signplus i) /\
   q_wb q = i_writeback i /\ q_user q = i_psr i /\ q_list q = i_rlist i) /\
  (q_cp q = i_pn i /\ q_crd q = i_cd i /\ q_crn q = i_cn i /\ q_crm q = i_cm i) /\
  shift_of i e (q_shift q) /\
  (takes_imm f = true -> imm_word (e_imm e) = Some (q_imm q)) /\
  (match f with
   | FCop _ _ inf => e_cpop e = Some (q_opc1 q) /\ (if inf then e_cpinf e = Some (q_opc2 q) else q_opc2 q = 0)
   | _ => True
   end) /\
  q_short q = match i_arch i with AARCH_GBA | AARCH_NDS => true | _ => false end.
Definition int_imm (v : imm_value) : bool := match v with IInt _ => true | _ => false end.

(** Lines that do not run into one of the defects of the assembler (shown in ArmLineProps.v): shift
    amounts and coprocessor numbers are truncated to 32 bits, [ror #32], [rrx] by register, user-mode
    transfers without an offset, [smlalbY], doubleword transfers of an odd register, and coprocessor
    opcodes above 7. *)
Definition shift_sane (s : wshift) : Prop :=
  match s with
  | WNone => True
  | WImm ty n => is_int32 n /\ ~ (ty = 3 /\ n = 32)
  | WReg ty _ => ty <> 4
  end.
Definition arm_sane (f : aform) (q : aops) : Prop :=
  shift_sane (q_shift q) /\
  match f with
  | FMem _ _ user (PlBase _) => user = false
  | FSmlal => q_x q = true
  | FHalf (HLdrd | HStrd) _ => Z.even (q_rd q) = true
  | FCop k _ _ => is_int32 (q_opc1 q) /\ is_int32 (q_opc2 q) /\ 0 <= q_opc1 q /\ 0 <= q_opc2 q /\
                  (q_opc1 q < 8 \/ cop_opc_max k = 15)
  | _ => True
  end.
(** Undefined behaviour: the magnitude of INT_MIN, or the shift of a negative number. *)
Definition arm_undefined (f : aform) (q : aops) (addr pool : Z) : Prop :=
  match f with
  | FBranch _ | FAdr | FMemAbs _ | FHalfAbs => u32 (q_imm q - addr - 8) = 2147483648
  | FLiteral => u32 (pool - addr - 8) = 2147483648
  | FMem _ _ _ (PlImm _) | FPld (PlImm _) | FHalf _ (PlImm _) => q_imm q = 2147483648
  | FSwi => q_short q = true /\ 2147483648 <= q_imm q
  | _ => False
  end.
