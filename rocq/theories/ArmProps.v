(** ARM encoder properties: C31, C32, C33, C37, C39. *)

Require Import ZArith Bool List String.
Require Import Verif.Ints Verif.Res Verif.ArmModel Verif.ArmSpec Verif.ArmIface.
Require Import Verif.ArmImmProofs Verif.ArmProofs Verif.ArmBranchProofs Verif.ArmShiftProofs Verif.ArmCopProofs.
Import ListNotations.
Local Open Scope Z_scope.

(** Sample inputs for the examples: row [n] of the opcode table with given operands. *)
Definition row (name mask : string) : arm_opcode :=
  match find (fun o => (op_name o =? name) && (op_mask o =? mask))%string ArmOpcodes with
  | Some o => o | None => mkArmOp "" "" 0 0 0 end.
Definition in_table (o : arm_opcode) : bool :=
  existsb (fun o' => (op_name o =? op_name o')%string && (op_mask o =? op_mask o')%string && (op_encoding o =? op_encoding o') &&
    (op_type o =? op_type o') && (op_flags o =? op_flags o')) ArmOpcodes.
Lemma in_table_In o : in_table o = true -> In o ArmOpcodes.
Proof.
  unfold in_table. rewrite existsb_exists. intros (o' & Hin & H).
  repeat rewrite andb_true_iff in H. destruct H as ((((H1 & H2) & H3) & H4) & H5).
  apply String.eqb_eq in H1, H2. apply Z.eqb_eq in H3, H4, H5.
  destruct o, o'; cbn in *; subst; exact Hin.
Qed.
Definition sample (o : arm_opcode) : arm_in :=
  mkArmIn o 14 0 false false false false false 0 0 false 0 1 2 3 15 4 5 6 7 false false true 32 0 AARCH_NDS.
Definition sample_shift (o : arm_opcode) (ty : Z) : arm_in :=
  mkArmIn o 14 0 false false false true false ty 0 false 0 1 2 3 15 4 5 6 7 false false true 32 0 AARCH_NDS.
Definition ev (z : Z) : arm_eval := mkArmEval (Some z) (Some z) (Some 3) (IInt z).
Lemma sample_wf n : arm_in_wf (sample n).
Proof. repeat split; vm_compute; congruence. Qed.
Lemma sample_shift_wf n ty : arm_in_wf (sample_shift n ty).
Proof. repeat split; vm_compute; congruence. Qed.

(** * C31 *)

(** The search for a rotated 8-bit constant is sound, complete and returns the smallest rotation. *)
Theorem C31_immediate_search : forall num,
  match getShiftedImmediate num with
  | Some (b, s) =>
      exists r, s = 2 * r /\ 0 <= r < 16 /\ 0 <= b < 256 /\ u32 num = ror32 b s /\
        (forall b' r', 0 <= b' < 256 -> 0 <= r' < 16 -> u32 num = ror32 b' (2 * r') -> r <= r')
  | None => ~ arm_encodable (u32 num)
  end.
Proof. exact shifted_immediate_spec. Qed.
Print Assumptions C31_immediate_search.
Example C31_ex1 : getShiftedImmediate 0xFF000000 = Some (255, 8). Proof. reflexivity. Qed.
Example C31_ex2 : getShiftedImmediate 0xF000000F = Some (255, 4). Proof. reflexivity. Qed.
Example C31_ex3 : getShiftedImmediate 0x101 = None. Proof. reflexivity. Qed.

(** * C31 and C32 end to end: data-processing instructions with an immediate.

    The emitted word decodes to the condition and registers that were written and to an instruction
    that behaves like the written one; an error is reported only if neither the constant nor the
    constant of the complementary instruction is encodable. *)
Theorem C32_arm_dp_immediate : forall i ramPos e z opc sn sd,
  In (i_op i) ArmOpcodes ->
  dp_imm_form (op_name (i_op i)) (op_mask (i_op i)) = Some (opc, sn, sd) ->
  arm_in_wf i -> i_use_shift i = false -> i_bitlen i = 32 ->
  imm_word (e_imm e) = Some z ->
  match arm_assemble i ramPos e with
  | ROk w =>
      exists opc' v',
        decode_dp_imm w = Some (mkDpImm (i_c i) opc' (i_s i || negb (dp_writes opc))
                                        (sel_value sn i) (sel_value sd i) v') /\
        ((opc' = opc /\ v' = z) \/
         (~ arm_encodable z /\ dp_complement opc z = Some (opc', v'))) /\
        dp_same opc z opc' v'
  | RErr =>
      ~ arm_encodable z /\
      (forall opc' v', dp_complement opc z = Some (opc', v') -> ~ arm_encodable v')
  | RUb => False
  end.
Proof. exact arm_dp_immediate. Qed.
Print Assumptions C32_arm_dp_immediate.
(** [add r6,r7,#-5] becomes [sub r6,r7,#5]. *)
Example C32_ex :
  In (i_op (sample (row "addCS" "d0,n0,/#i"))) ArmOpcodes /\ dp_imm_form (op_name (row "addCS" "d0,n0,/#i")) (op_mask (row "addCS" "d0,n0,/#i")) = Some (4, SelRn, SelRd) /\
  arm_assemble (sample (row "addCS" "d0,n0,/#i")) 0 (ev (-5)) = ROk 0xE2476005.
Proof. repeat split; try reflexivity. apply in_table_In. vm_compute. reflexivity. Qed.

(** * C33 *)

(** An accepted branch decodes to the requested target.  An ARM instruction is word aligned.  The
    last case is the one distance for which the range check itself overflows. *)
Theorem C33_arm_branch_target : forall i ramPos e z k,
  In (i_op i) ArmOpcodes -> branch_form (op_name (i_op i)) (op_mask (i_op i)) = Some k ->
  arm_in_wf i -> i_use_shift i = false -> i_bitlen i = 32 -> i_s i = false ->
  ramPos mod 4 = 0 -> e_imm e = IInt z ->
  match arm_assemble i ramPos e with
  | ROk w => decode_branch ramPos w = Some (k, branch_cond k i, u32 z)
  | RErr => z mod branch_align k <> 0 \/ 33554432 <= Z.abs (s32 (z - ramPos - 8))
  | RUb => u32 (z - ramPos - 8) = 2147483648
  end.
Proof. exact arm_branch. Qed.
Print Assumptions C33_arm_branch_target.
Example C33_ex : arm_assemble (sample (row "blx" "/#I")) 0x2000000 (ev 0x200FFFE) = ROk 0xFB003FFD /\
  decode_branch 0x2000000 0xFB003FFD = Some (BrBLX, 15, 0x200FFFE).
Proof. split; reflexivity. Qed.

(** * C37 *)

(** Data processing.  Missing from the full statement: amounts outside 32 bits and [ror #32] (see the
    refutations below). *)
Theorem C37_arm_shift_dp_partial : forall i ramPos e n opc sn sd sm,
  In (i_op i) ArmOpcodes -> dp_reg_form (op_name (i_op i)) (op_mask (i_op i)) = Some (opc, sn, sd, sm) ->
  arm_in_wf i -> i_use_shift i = true -> i_shift_byreg i = false -> 0 <= i_shift_type i <= 4 ->
  e_shift e = Some n -> is_int32 n -> ~ (i_shift_type i = 3 /\ n = 32) ->
  match arm_assemble i ramPos e with
  | ROk w => exists sh ws,
      decode_dp_reg w = Some (mkDpReg (i_c i) opc (i_s i || negb (dp_writes opc)) (sel_value sn i) (sel_value sd i)
                                      sh (msel_value sm i)) /\
      written_shift (i_shift_type i) n = Some ws /\ shift_same sh ws
  | RErr => written_shift (i_shift_type i) n = None
  | RUb => False
  end.
Proof. exact arm_dp_shift. Qed.
Print Assumptions C37_arm_shift_dp_partial.
Example C37_ex1 : dp_reg_form (op_name (row "addCS" "d0,n0,m0S0")) (op_mask (row "addCS" "d0,n0,m0S0")) = Some (4, SelRn, SelRd, SelRm) /\
  arm_assemble (sample_shift (row "addCS" "d0,n0,m0S0") 1) 0 (ev 32) = ROk 0xE0876025.
Proof. split; reflexivity. Qed.

(** Data processing with the amount in a register (lsl, lsr, asr, ror), and without a shift.  Missing:
    [rrx] by register, see the refutation below. *)
Theorem C37_arm_shift_register_partial : forall i ramPos e opc sn sd sm,
  In (i_op i) ArmOpcodes -> dp_reg_form (op_name (i_op i)) (op_mask (i_op i)) = Some (opc, sn, sd, sm) ->
  arm_in_wf i -> i_use_shift i = true -> i_shift_byreg i = true -> 0 <= i_shift_type i <= 3 ->
  exists w, arm_assemble i ramPos e = ROk w /\
    decode_dp_rsr w = Some (mkDpRsr (i_c i) opc (i_s i || negb (dp_writes opc)) (sel_value sn i) (sel_value sd i)
                                    (i_shift_type i) (i_shift_reg i) (msel_value sm i)).
Proof. exact arm_dp_rsr. Qed.
Print Assumptions C37_arm_shift_register_partial.
Theorem C37_arm_no_shift : forall i ramPos e opc sn sd sm,
  In (i_op i) ArmOpcodes -> dp_reg_form (op_name (i_op i)) (op_mask (i_op i)) = Some (opc, sn, sd, sm) ->
  arm_in_wf i -> i_use_shift i = false ->
  exists w, arm_assemble i ramPos e = ROk w /\
    decode_dp_reg w = Some (mkDpReg (i_c i) opc (i_s i || negb (dp_writes opc)) (sel_value sn i) (sel_value sd i)
                                    (ShLSL 0) (msel_value sm i)).
Proof. exact arm_dp_plain. Qed.
Print Assumptions C37_arm_no_shift.
(** add r6,r7,r5,ror r2 and add r6,r7,r5 *)
Example C37_ex3 :
  let i := mkArmIn (row "addCS" "d0,n0,m0S0") 14 0 false false false true true 3 2 false 0 1 2 3 15 4 5 6 7 false false true 32 0 AARCH_NDS in
  arm_in_wf i /\ arm_assemble i 0 (ev 0) = ROk 0xE0876275 /\
  arm_assemble (sample (row "addCS" "d0,n0,m0S0")) 0 (ev 0) = ROk 0xE0876005.
Proof. split; [repeat split; vm_compute; congruence|]. split; reflexivity. Qed.

(** Loads, stores and pld with a shifted register offset. *)
Theorem C37_arm_shift_mem_partial : forall i ramPos e n f,
  In (i_op i) ArmOpcodes -> mem_reg_form (op_name (i_op i)) (op_mask (i_op i)) = Some f ->
  arm_in_wf i -> i_use_shift i = true -> i_shift_byreg i = false -> 0 <= i_shift_type i <= 4 ->
  i_s i = false ->
  e_shift e = Some n -> is_int32 n -> ~ (i_shift_type i = 3 /\ n = 32) ->
  match arm_assemble i ramPos e with
  | ROk w => exists sh ws,
      decode_mem_reg w = Some (mkMemReg (mf_cond f i) (mf_pre f) (i_signplus i) (mf_byte f) (i_writeback i || mf_t f)
                                 (mf_load f) (i_rn i) (mf_rd f i) sh (i_rm i)) /\
      written_shift (i_shift_type i) n = Some ws /\ shift_same sh ws
  | RErr => written_shift (i_shift_type i) n = None
  | RUb => False
  end.
Proof. exact arm_mem_shift. Qed.
Print Assumptions C37_arm_shift_mem_partial.
Example C37_ex2 : mem_reg_form (op_name (row "ldrC" "d0,[n0,vm1S1]W")) (op_mask (row "ldrC" "d0,[n0,vm1S1]W")) = Some (mkMemForm true false true false true false) /\
  arm_assemble (sample_shift (row "ldrC" "d0,[n0,vm1S1]W") 2) 0 (ev 7) = ROk 0xE79763C5.
Proof. split; reflexivity. Qed.

(** [add r6,r7,r5,ror #32] is accepted and changes the destination register. *)
Theorem C37_arm_ror32_refuted : exists i e w,
  In (i_op i) ArmOpcodes /\ arm_in_wf i /\ i_use_shift i = true /\ i_shift_byreg i = false /\
  i_shift_type i = 3 /\ e_shift e = Some 32 /\ i_rd i = 6 /\
  arm_assemble i 0 e = ROk w /\
  exists d, decode_dp_reg w = Some d /\ dr_rd d = 7.
Proof.
  exists (sample_shift (row "addCS" "d0,n0,m0S0") 3), (ev 32), 0xE0877065.
  split; [apply in_table_In; vm_compute; reflexivity|]. split; [apply sample_shift_wf|].
  repeat split. eexists. split; reflexivity.
Qed.
Print Assumptions C37_arm_ror32_refuted.

(** [add r6,r7,r5,lsl #0x100000001] is accepted as [lsl #1]. *)
Theorem C37_arm_shift_truncation_refuted : exists i e w n,
  In (i_op i) ArmOpcodes /\ arm_in_wf i /\ i_use_shift i = true /\ i_shift_byreg i = false /\
  i_shift_type i = 0 /\ e_shift e = Some n /\ is_int64 n /\ written_shift 0 n = None /\
  arm_assemble i 0 e = ROk w.
Proof.
  exists (sample_shift (row "addCS" "d0,n0,m0S0") 0), (ev 0x100000001), 0xE0876085, 0x100000001.
  split; [apply in_table_In; vm_compute; reflexivity|]. split; [apply sample_shift_wf|].
  repeat split; vm_compute; congruence.
Qed.
Print Assumptions C37_arm_shift_truncation_refuted.

(** [add r6,r7,r5,rrx r2] is accepted; the emitted word is not a data-processing instruction with
    register-specified shift (bit 7 must be 0 in that format). *)
Theorem C37_arm_rrx_register_refuted : exists i e w,
  In (i_op i) ArmOpcodes /\ arm_in_wf i /\ i_use_shift i = true /\ i_shift_byreg i = true /\
  i_shift_type i = 4 /\ arm_assemble i 0 e = ROk w /\ bits w 4 1 = 1 /\ bits w 7 1 = 1.
Proof.
  exists (mkArmIn (row "addCS" "d0,n0,m0S0") 14 0 false false false true true 4 2 false 0 1 2 3 15 4 5 6 7 false false true 32 0 AARCH_NDS),
    (ev 0), 0xE0876295.
  split; [apply in_table_In; vm_compute; reflexivity|]. split; [repeat split; vm_compute; congruence|].
  repeat split.
Qed.
Print Assumptions C37_arm_rrx_register_refuted.

(** * C39 *)

(** Missing from the full statement: negative operands (undefined behaviour or sign bits over the
    whole word), operands outside 32 bits, and mcr/mrc with an opcode number 8..15. *)
Theorem C39_arm_coprocessor_partial : forall i ramPos e k u inf p q,
  In (i_op i) ArmOpcodes -> cop_form (op_name (i_op i)) (op_mask (i_op i)) = Some (k, u, inf) ->
  arm_in_wf i -> i_use_shift i = false -> i_s i = false ->
  e_cpop e = Some p -> is_int32 p -> (if inf then e_cpinf e = Some q /\ is_int32 q else q = 0) ->
  0 <= p -> 0 <= q -> (p < 8 \/ cop_opc_max k = 15) ->
  match arm_assemble i ramPos e with
  | ROk w =>
      p <= cop_opc_max k /\ q <= 7 /\
      decode_cop w = Some (cop_build k (if u then 15 else i_c i) p q (i_pn i) (i_cd i) (i_cn i) (i_cm i) (i_rd i) (i_rn i))
  | RErr => 15 < p \/ 7 < q
  | RUb => False
  end.
Proof. exact arm_cop. Qed.
Print Assumptions C39_arm_coprocessor_partial.
Example C39_ex : cop_form (op_name (row "mcrC" "X,Y,d1,N,M,Z")) (op_mask (row "mcrC" "X,Y,d1,N,M,Z")) = Some (KMcr, false, true) /\
  arm_assemble (sample (row "mcrC" "X,Y,d1,N,M,Z")) 0 (ev 5) = ROk 0xEEA26F73 /\
  decode_cop 0xEEA26F73 = Some (MCR 14 5 2 6 15 3 3).
Proof. repeat split. Qed.

(** [mcr p15,8,r6,c2,c3] is accepted and assembles to a software interrupt (bits 27..24 = 1111). *)
Theorem C39_arm_mcr_opcode_refuted : exists i e w,
  In (i_op i) ArmOpcodes /\ cop_form (op_name (i_op i)) (op_mask (i_op i)) = Some (KMcr, false, false) /\
  arm_in_wf i /\ e_cpop e = Some 8 /\ arm_assemble i 0 e = ROk w /\
  decode_cop w = None /\ bits w 24 4 = 15.
Proof.
  exists (sample (row "mcrC" "X,Y,d1,N,M")), (ev 8), 0xEF026F13.
  split; [apply in_table_In; vm_compute; reflexivity|]. split; [reflexivity|]. split; [apply sample_wf|].
  repeat split.
Qed.
Print Assumptions C39_arm_mcr_opcode_refuted.
