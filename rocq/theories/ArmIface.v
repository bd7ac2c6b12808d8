(** Vocabulary connecting parsed ARM operands with the specification: used to state the theorems. *)

Require Import ZArith Bool List.
Require Import Verif.Ints Verif.Res Verif.ArmModel Verif.ArmSpec.
Local Open Scope Z_scope.

(** Register operands as the parser delivers them. *)
Definition arm_in_wf (i : arm_in) : Prop :=
  0 <= i_c i < 15 /\ 0 <= i_rd i < 16 /\ 0 <= i_rn i < 16 /\ 0 <= i_rm i < 16 /\ 0 <= i_rs i < 16 /\
  0 <= i_shift_reg i < 16 /\ 0 <= i_cd i < 16 /\ 0 <= i_cn i < 16 /\ 0 <= i_cm i < 16 /\
  0 <= i_pn i < 16 /\ 0 <= i_a i < 8 /\ 0 <= i_field i < 16 /\ 0 <= i_rlist i < 65536.

(** The register a form of the instruction uses. *)
Definition sel_value (s : rsel) (i : arm_in) : Z :=
  match s with SelNone => 0 | SelRd => i_rd i | SelRn => i_rn i end.

(** The 32-bit word an immediate expression denotes. *)
Definition imm_word (v : imm_value) : option Z :=
  match v with IInt z => Some (u32 z) | IFloat b => Some (u32 b) | IBad => None end.

Definition branch_cond (k : br_kind) (i : arm_in) : Z := match k with BrBLX => 15 | _ => i_c i end.

Definition msel_value (s : msel) (i : arm_in) : Z :=
  match s with SelRm => i_rm i | SelRdM => i_rd i end.

Definition mf_cond (f : mem_form) (i : arm_in) : Z := if mf_pld f then 15 else i_c i.

Definition mf_rd (f : mem_form) (i : arm_in) : Z := if mf_pld f then 15 else i_rd i.
