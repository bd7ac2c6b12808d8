(** Rows of the ARM opcode table, by the form of the source line. *)

Require Import ZArith Lia Bool List String Ascii.
Require Import ZifyBool.
Require Import Verif.Ints Verif.IntsLemmas Verif.BitFields Verif.Res Verif.ArmModel Verif.ArmSpec Verif.ArmIface
  Verif.ArmProofs Verif.ArmShiftProofs Verif.ArmWordSpec.
Import ListNotations.
Local Open Scope Z_scope.

Definition relevant : list Z := [
  ARM_D; ARM_N; ARM_IMMEDIATE; ARM_HALFWORD; ARM_UNCOND; ARM_REGISTER; ARM_LOAD; ARM_STORE; ARM_X; ARM_Y;
  ARM_SHIFT; ARM_POOL; ARM_ABS; ARM_BRANCH; ARM_ABSIMM; ARM_MRS; ARM_SWI; ARM_COPOP; ARM_COPINF; ARM_DN; ARM_DM;
  ARM_RDEVEN; ARM_OPTIMIZE; ARM_PCR; ARM_SIGN].

Definition pl_reg (p : place_form) : bool := match p with PlReg _ => true | _ => false end.
Definition pl_pre (p : place_form) : bool := match p with PlReg true | PlImm true => false | _ => true end.
Definition pl_wb (p : place_form) : bool := match p with PlBase wb => wb | _ => false end.
Definition half_load (k : half_kind) : bool := match k with HLdrh | HLdrsb | HLdrsh => true | _ => false end.
Definition half_op (k : half_kind) : Z :=
  match k with HStrh | HLdrh => 1 | HLdrd | HLdrsb => 2 | HStrd | HLdrsh => 3 end.
Definition half_abs (k : half_kind) : bool := match k with HLdrd | HStrd => false | _ => true end.
Definition half_sign (k : half_kind) : bool := match k with HStrh => true | _ => false end.
Definition bitf (b : bool) (n : Z) : Z := Z.shiftl (b2z b) n.

(** Forms of the rows that are treated here: type, encoding, flags, width of the immediate. *)
Definition row_of (f : aform) : option (Z * Z * list Z * Z) :=
  match f with
  | FBx l => Some (ARM_TYPE3, Z.lor 0x012fff10 (bitf l 5), [ARM_N], 32)
  | FNop => Some (ARM_TYPE5, 0xe1a00000, [ARM_UNCOND], 32)
  | FAdr => Some (ARM_TYPE5, 0x028f0000, [ARM_SHIFT; ARM_IMMEDIATE; ARM_D; ARM_PCR], 32)
  | FMsr imm => Some (ARM_TYPE6, Z.lor 0x0120f000 (bitf imm 25),
                      if imm then [ARM_IMMEDIATE; ARM_SHIFT] else [ARM_REGISTER], 32)
  | FMrs => Some (ARM_TYPE6, 0x010f0000, [ARM_REGISTER; ARM_D; ARM_MRS], 32)
  | FMul acc two => Some (ARM_TYPE7, Z.lor 0x90 (bitf acc 21),
                          ARM_D :: (if acc then [ARM_N] else []) ++ (if two then [ARM_DM] else []), 32)
  | FMull s a => Some (ARM_TYPE7, Z.lor (Z.lor 0x00800090 (bitf s 22)) (bitf a 21), [ARM_D; ARM_N], 32)
  | FSmla => Some (ARM_TYPE7, 0x01000080, [ARM_D; ARM_N; ARM_X; ARM_Y], 32)
  | FSmlaw => Some (ARM_TYPE7, 0x01200080, [ARM_D; ARM_N; ARM_Y], 32)
  | FSmulw => Some (ARM_TYPE7, 0x012000a0, [ARM_D; ARM_Y], 32)
  | FSmlal => Some (ARM_TYPE7, 0x014000a0, [ARM_D; ARM_N; ARM_X; ARM_Y], 32)
  | FSmul => Some (ARM_TYPE7, 0x01600080, [ARM_D; ARM_X; ARM_Y], 32)
  | FMem l b u p => Some (ARM_TYPE9, Z.lor (Z.lor (Z.lor (Z.lor (Z.lor 0x04800000 (bitf (pl_reg p) 25)) (bitf (pl_pre p) 24))
                            (bitf b 22)) (bitf (u || pl_wb p) 21)) (bitf l 20),
                          [ARM_D; ARM_N] ++ match p with PlBase _ => [] | PlReg _ => [ARM_REGISTER; ARM_SIGN]
                                                       | PlImm _ => [ARM_IMMEDIATE; ARM_ABS] end, 12)
  | FMemAbs l => Some (ARM_TYPE9, Z.lor 0x058f0000 (bitf l 20), [ARM_D; ARM_LOAD; ARM_ABSIMM; ARM_IMMEDIATE], 12)
  | FLiteral => Some (ARM_TYPE9, 0x059f0000, [ARM_D; ARM_POOL; ARM_IMMEDIATE], 32)
  | FPld p => Some (ARM_TYPE9, Z.lor 0xf5d0f000 (bitf (pl_reg p) 25),
                    [ARM_UNCOND; ARM_N] ++ match p with PlBase _ => [] | PlReg _ => [ARM_REGISTER; ARM_SIGN]
                                                   | PlImm _ => [ARM_IMMEDIATE; ARM_ABS] end, 12)
  | FHalf k p => Some (ARM_TYPE10, Z.lor (Z.lor (Z.lor (Z.lor 0x00800090 (Z.shiftl (half_op k) 5)) (bitf (half_load k) 20))
                          (bitf (negb (pl_reg p)) 22)) (bitf (pl_pre p) 24),
                       [ARM_D; ARM_N] ++ match p with PlBase _ => []
                                                    | PlReg _ => ARM_REGISTER :: (if half_sign k then [ARM_SIGN] else [])
                                                    | PlImm _ => ARM_IMMEDIATE :: if half_abs k then [ARM_ABS] else [] end, 8)
  | FHalfAbs => Some (ARM_TYPE10, 0x01cf00b0, [ARM_D; ARM_LOAD; ARM_ABSIMM; ARM_IMMEDIATE], 8)
  | FBlock l => Some (ARM_TYPE11, Z.lor 0x08000000 (bitf l 20), [if l then ARM_LOAD else ARM_STORE; ARM_N], 32)
  | FPush => Some (ARM_TYPE11, 0x092d0000, [], 32)
  | FPop => Some (ARM_TYPE11, 0x08bd0000, [], 32)
  | FSwp b two => Some (ARM_TYPE12, Z.lor 0x01000090 (bitf b 22), [ARM_D; ARM_N] ++ if two then [ARM_DM] else [], 32)
  | FSwi => Some (ARM_TYPE13, 0x0f000000, [ARM_SWI; ARM_IMMEDIATE], 24)
  | FBkpt => Some (ARM_TYPE13, 0xe1200070, [ARM_UNCOND; ARM_IMMEDIATE], 16)
  | FClz => Some (ARM_MISC, 0x016f0f10, [ARM_D], 32)
  | FSat op two => Some (ARM_MISC, Z.lor 0x01000050 (Z.shiftl op 21), [ARM_D; ARM_N] ++ if two then [ARM_DM] else [], 32)
  | FBranch _ | FDpImm _ _ _ | FDpReg _ _ _ _ | FCop _ _ _ => None
  end.

(** Does the letter occur in the name or the operand syntax? *)
Fixpoint has_char (c : ascii) (s : string) : bool :=
  match s with
  | EmptyString => false
  | String a r => Ascii.eqb c a || has_char c r
  end.
Definition row_ok (o : arm_opcode) : bool :=
  match arm_form (op_name o) (op_mask o) with
  | None => false
  | Some f =>
      match row_of f with
      | None => true
      | Some (ty, enc, fl, _) =>
          (op_type o =? ty) && (op_encoding o =? enc) &&
          forallb (fun F => Bool.eqb (has o F) (existsb (Z.eqb F) fl)) relevant &&
          match f with
          | FSat op _ => (0 <=? op) && (op <? 4)
          | FMem _ _ true (PlReg false | PlImm false | PlBase true) => false
          | FPld (PlReg true | PlImm true | PlBase true) => false
          | FHalf _ (PlBase true) => false
          | _ => true
          end
      end &&
      (Bool.eqb (has_char "S" (op_name o)) (takes_s f)) &&
      (Bool.eqb (has_char "S" (op_mask o) || has_char "z" (op_mask o)) (takes_shift f)) &&
      (Bool.eqb (has_char "W" (op_mask o)) (takes_wb f)) &&
      (Bool.eqb (has_char "p" (op_mask o)) (match f with FBlock _ => true | _ => false end)) &&
      (Bool.eqb (has o ARM_SIGN) (takes_sign f)) && (Bool.eqb (has_char "v" (op_mask o)) (takes_sign f))
  end.
Lemma rows_ok : forallb row_ok ArmOpcodes = true.
Proof. vm_compute. reflexivity. Qed.

Lemma row_facts o f ty enc fl n : In o ArmOpcodes -> arm_form (op_name o) (op_mask o) = Some f ->
  row_of f = Some (ty, enc, fl, n) ->
  op_type o = ty /\ op_encoding o = enc /\
  (forall F, existsb (Z.eqb F) relevant = true -> has o F = existsb (Z.eqb F) fl).
Proof.
  intros Hin Hf Hr. pose proof rows_ok as H. rewrite forallb_forall in H. specialize (H _ Hin).
  unfold row_ok in H. rewrite Hf, Hr in H. rewrite !andb_true_iff in H. decompose [and] H. clear H.
  rewrite Z.eqb_eq in *. split; [assumption|split; [assumption|]].
  intros F HF. rewrite existsb_exists in HF. destruct HF as (G & HG & E). apply Z.eqb_eq in E. subst G.
  match goal with H : forallb _ _ = true |- _ => rewrite forallb_forall in H; specialize (H _ HG);
    apply eqb_prop in H; exact H end.
Qed.
Lemma row_sat o op two : In o ArmOpcodes -> arm_form (op_name o) (op_mask o) = Some (FSat op two) -> 0 <= op < 4.
Proof.
  intros Hin Hf. pose proof rows_ok as H. rewrite forallb_forall in H. specialize (H _ Hin).
  unfold row_ok in H. rewrite Hf in H. cbn [row_of] in H. rewrite !andb_true_iff in H. decompose [and] H. lia.
Qed.
Lemma row_user o l b p : In o ArmOpcodes -> arm_form (op_name o) (op_mask o) = Some (FMem l b true p) ->
  p = PlReg true \/ p = PlImm true \/ p = PlBase false.
Proof.
  intros Hin Hf. pose proof rows_ok as H. rewrite forallb_forall in H. specialize (H _ Hin).
  unfold row_ok in H. rewrite Hf in H. cbn [row_of] in H. rewrite !andb_true_iff in H. decompose [and] H.
  destruct p as [[]|[]|[]]; auto; discriminate.
Qed.
Lemma row_pld o p : In o ArmOpcodes -> arm_form (op_name o) (op_mask o) = Some (FPld p) ->
  p = PlReg false \/ p = PlImm false \/ p = PlBase false.
Proof.
  intros Hin Hf. pose proof rows_ok as H. rewrite forallb_forall in H. specialize (H _ Hin).
  unfold row_ok in H. rewrite Hf in H. cbn [row_of] in H. rewrite !andb_true_iff in H. decompose [and] H.
  destruct p as [[]|[]|[]]; auto; discriminate.
Qed.
Lemma row_half o k wb : In o ArmOpcodes -> arm_form (op_name o) (op_mask o) = Some (FHalf k (PlBase wb)) -> wb = false.
Proof.
  intros Hin Hf. pose proof rows_ok as H. rewrite forallb_forall in H. specialize (H _ Hin).
  unfold row_ok in H. rewrite Hf in H. cbn [row_of] in H. rewrite !andb_true_iff in H. decompose [and] H.
  destruct wb; [discriminate|reflexivity].
Qed.
Lemma row_syntax o f : In o ArmOpcodes -> arm_form (op_name o) (op_mask o) = Some f ->
  has_char "S" (op_name o) = takes_s f /\
  has_char "S" (op_mask o) || has_char "z" (op_mask o) = takes_shift f /\
  has_char "W" (op_mask o) = takes_wb f /\
  has_char "p" (op_mask o) = (match f with FBlock _ => true | _ => false end) /\
  has o ARM_SIGN = takes_sign f /\ has_char "v" (op_mask o) = takes_sign f.
Proof.
  intros Hin Hf. pose proof rows_ok as H. rewrite forallb_forall in H. specialize (H _ Hin).
  unfold row_ok in H. rewrite Hf in H. rewrite !andb_true_iff in H. decompose [and] H. clear H.
  repeat match goal with H : Bool.eqb _ _ = true |- _ => apply eqb_prop in H end. auto 10.
Qed.
Lemma row_form o : In o ArmOpcodes -> exists f, arm_form (op_name o) (op_mask o) = Some f.
Proof.
  intros Hin. pose proof rows_ok as H. rewrite forallb_forall in H. specialize (H _ Hin). unfold row_ok in H.
  destruct (arm_form (op_name o) (op_mask o)); [eauto|discriminate].
Qed.
