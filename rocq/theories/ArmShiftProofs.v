(** Lemmas for shifted register operands of ARM instructions. *)

Require Import ZArith Lia Bool List String.
Require Import ZifyBool Btauto.
Require Import Verif.Ints Verif.IntsLemmas Verif.BitFields Verif.Res Verif.ArmModel Verif.ArmSpec Verif.ArmIface
  Verif.ArmProofs.
Import ListNotations.
Local Open Scope Z_scope.
Ltac Zify.zify_post_hook ::= Z.div_mod_to_equations.

(** The constant shift after validation, as field contents. *)
Lemma validate_shift_fields ty n :
  0 <= ty <= 4 -> ~ (ty = 3 /\ n = 32) ->
  match validate_shift ty n with
  | ROk (t, a) => 0 <= t < 4 /\ 0 <= a < 32 /\
      exists w, written_shift ty n = Some w /\ shift_same (decode_imm_shift t a) w
  | RErr => written_shift ty n = None
  | RUb => False
  end.
Proof.
  intros Hty Hn32. unfold validate_shift, ARM_SHIFT_LSL, ARM_SHIFT_LSR, ARM_SHIFT_ASR, ARM_SHIFT_ROR, ARM_SHIFT_RRX.
  assert (Hno : forall x c, 0 <= x < 4294967296 -> shift_value (ShLSL 0) x c = x).
  { intros. cbn [shift_value]. change (2 ^ 0) with 1. unfold u32. lia. }
  assert (H : ty = 0 \/ ty = 1 \/ ty = 2 \/ ty = 3 \/ ty = 4) by lia.
  destruct H as [-> | [-> | [-> | [-> | ->]]]]; cbn [Z.eqb Pos.eqb]; rewrite ?andb_false_r, ?andb_true_r;
    cbn [written_shift].
  - destruct (Z.eqb_spec n 32); [subst; reflexivity|].
    destruct ((n >? 32) || (n <? 0)) eqn:E.
    + replace ((0 <=? n) && (n <=? 31)) with false by lia. reflexivity.
    + replace ((0 <=? n) && (n <=? 31)) with true by lia. split; [lia|split; [lia|]].
      eexists; split; [reflexivity|]. intros x c Hx. reflexivity.
  - destruct (Z.eqb_spec n 0).
    + subst. cbn [Z.gtb Z.compare Z.ltb orb]. split; [lia|split; [lia|]].
      eexists; split; [reflexivity|]. intros x c Hx. cbn [decode_imm_shift]. rewrite Hno by assumption.
      cbn [shift_value]. change (2 ^ 0) with 1. lia.
    + destruct (Z.eqb_spec n 32).
      * subst. cbn [Z.gtb Z.compare Z.ltb orb]. split; [lia|split; [lia|]].
        eexists; split; [reflexivity|]. intros x c Hx. reflexivity.
      * destruct ((n >? 32) || (n <? 0)) eqn:E.
        -- replace ((0 <=? n) && (n <=? 32)) with false by lia. reflexivity.
        -- replace ((0 <=? n) && (n <=? 32)) with true by lia. split; [lia|split; [lia|]].
           eexists; split; [reflexivity|]. intros x c Hx. cbn [decode_imm_shift].
           replace (n =? 0) with false by lia. reflexivity.
  - destruct (Z.eqb_spec n 0).
    + subst. cbn [Z.gtb Z.compare Z.ltb orb]. split; [lia|split; [lia|]].
      eexists; split; [reflexivity|]. intros x c Hx. cbn [decode_imm_shift]. rewrite Hno by assumption.
      cbn [shift_value]. change (2 ^ 0) with 1. rewrite Z.div_1_r, u32_s32, u32_small by assumption. reflexivity.
    + destruct (Z.eqb_spec n 32).
      * subst. cbn [Z.gtb Z.compare Z.ltb orb]. split; [lia|split; [lia|]].
        eexists; split; [reflexivity|]. intros x c Hx. reflexivity.
      * destruct ((n >? 32) || (n <? 0)) eqn:E.
        -- replace ((0 <=? n) && (n <=? 32)) with false by lia. reflexivity.
        -- replace ((0 <=? n) && (n <=? 32)) with true by lia. split; [lia|split; [lia|]].
           eexists; split; [reflexivity|]. intros x c Hx. cbn [decode_imm_shift].
           replace (n =? 0) with false by lia. reflexivity.
  - destruct (Z.eqb_spec n 0).
    + subst. cbn [Z.gtb Z.compare Z.ltb orb]. split; [lia|split; [lia|]].
      eexists; split; [reflexivity|]. intros x c Hx. cbn [decode_imm_shift]. rewrite Hno by assumption.
      cbn [shift_value]. change (0 mod 32) with 0. unfold ror32. change (2 ^ 0) with 1. lia.
    + destruct ((n >? 32) || (n <? 0)) eqn:E.
      * replace ((0 <=? n) && (n <=? 31)) with false by lia. reflexivity.
      * replace ((0 <=? n) && (n <=? 31)) with true by lia. split; [lia|split; [lia|]].
        eexists; split; [reflexivity|]. intros x c Hx. cbn [decode_imm_shift].
        replace (n =? 0) with false by lia. reflexivity.
  - destruct (Z.eqb_spec n 1).
    + subst. cbn [negb Z.gtb Z.compare Z.ltb orb Z.eqb]. split; [lia|split; [lia|]].
      eexists; split; [reflexivity|]. intros x c Hx. reflexivity.
    + cbn [negb]. reflexivity.
Qed.

Definition dpr_row_ok (o : arm_opcode) : bool :=
  match dp_reg_form (op_name o) (op_mask o) with
  | None => true
  | Some (opc, sn, sd, sm) =>
      (0 <=? opc) && (opc <? 16) && (op_type o =? ARM_TYPE5) &&
      (op_encoding o =? Z.lor (Z.shiftl opc 21) (Z.shiftl (b2z (sel_is_none sd)) 20)) &&
      Bool.eqb (sel_is_none sd) (negb (dp_writes opc)) &&
      has o ARM_REGISTER && negb (has o ARM_IMMEDIATE) &&
      negb (has o ARM_UNCOND) && negb (has o ARM_COPOP) && negb (has o ARM_COPINF) &&
      negb (has o ARM_RDEVEN) &&
      Bool.eqb (has o ARM_N) (negb (sel_is_none sn)) &&
      Bool.eqb (has o ARM_D) (negb (sel_is_none sd)) &&
      Bool.eqb (has o ARM_DN) (sel_is_rd sn) &&
      Bool.eqb (has o ARM_DM) (match sm with SelRdM => true | SelRm => false end) &&
      match sd with SelRn => false | _ => true end
  end.
Lemma dpr_rows_ok : forallb dpr_row_ok ArmOpcodes = true.
Proof. vm_compute. reflexivity. Qed.

Ltac row_facts Hr :=
  repeat rewrite andb_true_iff in Hr; decompose [and] Hr; clear Hr;
  repeat match goal with
  | H : Bool.eqb _ _ = true |- _ => apply eqb_prop in H
  | H : (_ =? _) = true |- _ => apply Z.eqb_eq in H
  | H : negb _ = true |- _ => apply negb_true_iff in H
  end.

Lemma orif_field (b : bool) x n : (if b then Z.lor x (Z.shiftl 1 n) else x) = Z.lor x (Z.shiftl (b2z b) n).
Proof. destruct b; cbn [b2z]; [reflexivity|]. rewrite Z.shiftl_0_l, Z.lor_0_r. reflexivity. Qed.
Lemma sel_field s i x n v : (s <> SelNone -> v = sel_value s i) ->
  (if negb (sel_is_none s) then Z.lor x (Z.shiftl v n) else x) = Z.lor x (Z.shiftl (sel_value s i) n).
Proof.
  intros H. destruct s; cbn [sel_is_none negb sel_value] in *; [|rewrite H; congruence|rewrite H; congruence].
  rewrite Z.shiftl_0_l, Z.lor_0_r. reflexivity.
Qed.
Lemma b2z_range b : 0 <= b2z b < 2. Proof. destruct b; cbn; lia. Qed.
Lemma b2z_eqb b : (b2z b =? 1) = b. Proof. destruct b; reflexivity. Qed.
Lemma b2z_lor_eqb a b : (Z.lor (b2z a) (b2z b) =? 1) = a || b. Proof. destruct a, b; reflexivity. Qed.

Lemma dp_reg_word opc sb c si vn vd am ty vm :
  0 <= opc < 16 -> 0 <= c < 16 -> 0 <= vn < 16 -> 0 <= vd < 16 -> 0 <= am < 32 -> 0 <= ty < 4 -> 0 <= vm < 16 ->
  decode_dp_reg (u32 (Z.lor (Z.lor (Z.lor (Z.lor (Z.lor (Z.lor (Z.lor (Z.lor (Z.shiftl opc 21) (Z.shiftl (b2z sb) 20))
     (Z.shiftl c 28)) (Z.shiftl (b2z si) 20)) (Z.shiftl vn 16)) (Z.shiftl vd 12)) (Z.shiftl am 7)) (Z.shiftl ty 5)) vm))
  = Some (mkDpReg c opc (si || sb) vn vd (decode_imm_shift ty am) vm).
Proof.
  intros. pose proof (b2z_range sb). pose proof (b2z_range si).
  unfold decode_dp_reg. bits_norm. cbn [Z.eqb andb]. rewrite b2z_lor_eqb, orb_comm. reflexivity.
Qed.

Lemma arm_dp_shift i ramPos e n opc sn sd sm :
  In (i_op i) ArmOpcodes -> dp_reg_form (op_name (i_op i)) (op_mask (i_op i)) = Some (opc, sn, sd, sm) ->
  arm_in_wf i -> i_use_shift i = true -> i_shift_byreg i = false -> 0 <= i_shift_type i <= 4 ->
  e_shift e = Some n -> is_int32 n -> ~ (i_shift_type i = 3 /\ n = 32) ->
  match arm_assemble i ramPos e with
  | ROk w => exists sh ws,
      decode_dp_reg w = Some (mkDpReg (i_c i) opc (i_s i || negb (dp_writes opc)) (sel_value sn i) (sel_value sd i)
                                      sh (msel_value sm i)) /\
      written_shift (i_shift_type i) n = Some ws /\ shift_same sh ws
  | RErr => written_shift (i_shift_type i) n = None
  | RUb => False
  end.
Proof.
  intros Hin Hf Hwf Hus Hbr Hty He Hn Hn32.
  pose proof dpr_rows_ok as Hr. rewrite forallb_forall in Hr. specialize (Hr _ Hin).
  unfold dpr_row_ok in Hr. rewrite Hf in Hr. row_facts Hr.
  destruct Hwf as (Hc & Hrd & Hrn & Hrm & _).
  unfold arm_assemble, arm_validate. rewrite Hus, Hbr, He.
  rewrite s32_small by exact Hn.
  pose proof (validate_shift_fields (i_shift_type i) n Hty Hn32) as Hv.
  cbn [andb negb].
  destruct (validate_shift (i_shift_type i) n) as [[t a]| |]; cbn [rbind]; [|exact Hv|exact Hv].
  destruct Hv as (Ht & Ha & ws & Hws & Hsame).
  repeat match goal with H : has _ _ = _ |- _ => rewrite H end. cbn [rbind andb].
  unfold arm_encode. cbn [o_newenc o_final o_newtype o_rn o_rm].
  repeat match goal with H : has _ _ = _ |- _ => rewrite H end.
  match goal with H : op_type _ = _ |- _ => rewrite H end. rewrite Hus, Hbr.
  match goal with H : op_encoding _ = _ |- _ => rewrite H end.
  cbn [Z.eqb Pos.eqb ARM_TYPE3 ARM_TYPE4 ARM_TYPE5 rbind andb].
  exists (decode_imm_shift t a), ws. split; [|split; assumption].
  rewrite orif_field.
  rewrite (sel_field sn i) by (destruct sn; cbn; congruence).
  rewrite (sel_field sd i) by (destruct sd; cbn; congruence).
  assert (Hm : (if match sm with SelRm => false | SelRdM => true end then i_rd i else i_rm i) = msel_value sm i)
    by (destruct sm; reflexivity).
  rewrite Hm.
  rewrite dp_reg_word; try lia.
  - match goal with H : sel_is_none sd = _ |- _ => rewrite H end. reflexivity.
  - destruct sn; cbn [sel_value]; lia.
  - destruct sd; cbn [sel_value]; lia.
  - destruct sm; cbn [msel_value]; lia.
Qed.

Lemma dp_rsr_word opc sb c si vn vd rs ty vm :
  0 <= opc < 16 -> 0 <= c < 16 -> 0 <= vn < 16 -> 0 <= vd < 16 -> 0 <= rs < 16 -> 0 <= ty < 4 -> 0 <= vm < 16 ->
  decode_dp_rsr (u32 (Z.lor (Z.lor (Z.lor (Z.lor (Z.lor (Z.lor (Z.lor (Z.lor (Z.lor (Z.shiftl opc 21) (Z.shiftl (b2z sb) 20))
     (Z.shiftl c 28)) (Z.shiftl (b2z si) 20)) (Z.shiftl vn 16)) (Z.shiftl vd 12)) (Z.shiftl rs 8)) (Z.shiftl 1 4)) (Z.shiftl ty 5)) vm))
  = Some (mkDpRsr c opc (si || sb) vn vd ty rs vm).
Proof.
  intros. pose proof (b2z_range sb). pose proof (b2z_range si).
  unfold decode_dp_rsr. bits_norm. cbn [Z.eqb Pos.eqb andb]. rewrite b2z_lor_eqb, orb_comm. reflexivity.
Qed.
Lemma dp_plain_word opc sb c si vn vd vm :
  0 <= opc < 16 -> 0 <= c < 16 -> 0 <= vn < 16 -> 0 <= vd < 16 -> 0 <= vm < 16 ->
  decode_dp_reg (u32 (Z.lor (Z.lor (Z.lor (Z.lor (Z.lor (Z.lor (Z.shiftl opc 21) (Z.shiftl (b2z sb) 20))
     (Z.shiftl c 28)) (Z.shiftl (b2z si) 20)) (Z.shiftl vn 16)) (Z.shiftl vd 12)) vm))
  = Some (mkDpReg c opc (si || sb) vn vd (ShLSL 0) vm).
Proof.
  intros. pose proof (b2z_range sb). pose proof (b2z_range si).
  unfold decode_dp_reg. bits_norm. cbn [Z.eqb Pos.eqb andb decode_imm_shift]. rewrite b2z_lor_eqb, orb_comm. reflexivity.
Qed.

Ltac dp_open Hin Hf Hwf Hc Hrd Hrn Hrm Hsr :=
  pose proof dpr_rows_ok as Hr; rewrite forallb_forall in Hr; specialize (Hr _ Hin);
  unfold dpr_row_ok in Hr; rewrite Hf in Hr; row_facts Hr;
  destruct Hwf as (Hc & Hrd & Hrn & Hrm & _ & Hsr & _).
Lemma arm_dp_rsr i ramPos e opc sn sd sm :
  In (i_op i) ArmOpcodes -> dp_reg_form (op_name (i_op i)) (op_mask (i_op i)) = Some (opc, sn, sd, sm) ->
  arm_in_wf i -> i_use_shift i = true -> i_shift_byreg i = true -> 0 <= i_shift_type i <= 3 ->
  exists w, arm_assemble i ramPos e = ROk w /\
    decode_dp_rsr w = Some (mkDpRsr (i_c i) opc (i_s i || negb (dp_writes opc)) (sel_value sn i) (sel_value sd i)
                                    (i_shift_type i) (i_shift_reg i) (msel_value sm i)).
Proof.
  intros Hin Hf Hwf Hus Hbr Hty. dp_open Hin Hf Hwf Hc Hrd Hrn Hrm Hsr.
  unfold arm_assemble, arm_validate. rewrite Hus, Hbr. cbn [andb negb rbind].
  repeat match goal with H : has _ _ = _ |- _ => rewrite H end. cbn [rbind andb].
  unfold arm_encode. cbn [o_newenc o_final o_newtype o_rn o_rm].
  repeat match goal with H : has _ _ = _ |- _ => rewrite H end.
  match goal with H : op_type _ = _ |- _ => rewrite H end. rewrite Hus, Hbr.
  match goal with H : op_encoding _ = _ |- _ => rewrite H end.
  cbn [Z.eqb Pos.eqb ARM_TYPE3 ARM_TYPE4 ARM_TYPE5 rbind andb].
  eexists. split; [reflexivity|].
  rewrite orif_field.
  rewrite (sel_field sn i) by (destruct sn; cbn; congruence).
  rewrite (sel_field sd i) by (destruct sd; cbn; congruence).
  assert (Hm : (if match sm with SelRm => false | SelRdM => true end then i_rd i else i_rm i) = msel_value sm i)
    by (destruct sm; reflexivity).
  rewrite Hm.
  rewrite dp_rsr_word; try lia.
  - match goal with H : sel_is_none sd = _ |- _ => rewrite H end. reflexivity.
  - destruct sn; cbn [sel_value]; lia.
  - destruct sd; cbn [sel_value]; lia.
  - destruct sm; cbn [msel_value]; lia.
Qed.
Lemma arm_dp_plain i ramPos e opc sn sd sm :
  In (i_op i) ArmOpcodes -> dp_reg_form (op_name (i_op i)) (op_mask (i_op i)) = Some (opc, sn, sd, sm) ->
  arm_in_wf i -> i_use_shift i = false ->
  exists w, arm_assemble i ramPos e = ROk w /\
    decode_dp_reg w = Some (mkDpReg (i_c i) opc (i_s i || negb (dp_writes opc)) (sel_value sn i) (sel_value sd i)
                                    (ShLSL 0) (msel_value sm i)).
Proof.
  intros Hin Hf Hwf Hus. dp_open Hin Hf Hwf Hc Hrd Hrn Hrm Hsr.
  unfold arm_assemble, arm_validate. rewrite Hus. cbn [andb negb rbind].
  repeat match goal with H : has _ _ = _ |- _ => rewrite H end. cbn [rbind andb].
  unfold arm_encode. cbn [o_newenc o_final o_newtype o_rn o_rm].
  repeat match goal with H : has _ _ = _ |- _ => rewrite H end.
  match goal with H : op_type _ = _ |- _ => rewrite H end. rewrite Hus.
  match goal with H : op_encoding _ = _ |- _ => rewrite H end.
  cbn [Z.eqb Pos.eqb ARM_TYPE3 ARM_TYPE4 ARM_TYPE5 rbind andb].
  eexists. split; [reflexivity|].
  rewrite orif_field.
  rewrite (sel_field sn i) by (destruct sn; cbn; congruence).
  rewrite (sel_field sd i) by (destruct sd; cbn; congruence).
  assert (Hm : (if match sm with SelRm => false | SelRdM => true end then i_rd i else i_rm i) = msel_value sm i)
    by (destruct sm; reflexivity).
  rewrite Hm.
  rewrite dp_plain_word; try lia.
  - match goal with H : sel_is_none sd = _ |- _ => rewrite H end. reflexivity.
  - destruct sn; cbn [sel_value]; lia.
  - destruct sd; cbn [sel_value]; lia.
  - destruct sm; cbn [msel_value]; lia.
Qed.

(** * Loads and stores with register offset *)

Definition memr_row_ok (o : arm_opcode) : bool :=
  match mem_reg_form (op_name o) (op_mask o) with
  | None => true
  | Some f =>
      (op_type o =? ARM_TYPE9) &&
      (op_encoding o =? Z.lor (Z.lor (Z.lor (Z.lor (Z.lor (Z.lor (Z.lor (Z.shiftl 3 25) (Z.shiftl (b2z (mf_pre f)) 24)) (Z.shiftl 1 23))
         (Z.shiftl (b2z (mf_byte f)) 22)) (Z.shiftl (b2z (mf_t f)) 21)) (Z.shiftl (b2z (mf_load f)) 20))
         (Z.shiftl (if mf_pld f then 15 else 0) 28)) (Z.shiftl (if mf_pld f then 15 else 0) 12)) &&
      has o ARM_REGISTER && negb (has o ARM_IMMEDIATE) && has o ARM_SIGN && negb (has o ARM_ABS) &&
      Bool.eqb (has o ARM_UNCOND) (mf_pld f) && negb (has o ARM_COPOP) && negb (has o ARM_COPINF) &&
      negb (has o ARM_RDEVEN) && has o ARM_N && Bool.eqb (has o ARM_D) (negb (mf_pld f)) &&
      negb (has o ARM_DN) && negb (has o ARM_DM)
  end.
Lemma memr_rows_ok : forallb memr_row_ok ArmOpcodes = true.
Proof. vm_compute. reflexivity. Qed.

Lemma mem_reg_word p u b t l c wb vn vd am ty vm x :
  0 <= c < 16 -> 0 <= vn < 16 -> 0 <= vd < 16 -> 0 <= am < 32 -> 0 <= ty < 4 -> 0 <= vm < 16 ->
  x = Z.lor (Z.lor (Z.lor (Z.lor (Z.lor (Z.lor (Z.lor (Z.lor (Z.lor (Z.lor
         (Z.shiftl 3 25) (Z.shiftl (b2z p) 24)) (Z.shiftl 1 23))
         (Z.shiftl (b2z b) 22)) (Z.shiftl (b2z t) 21)) (Z.shiftl (b2z l) 20))
         (Z.shiftl (c) 28)) (Z.shiftl (vd) 12))
         (Z.shiftl (b2z wb) 21)) (Z.shiftl vn 16)) 0 ->
  decode_mem_reg (u32 (Z.lor (Z.lor (Z.lor (if negb u then clear_bit x 23 else x)
     (Z.shiftl am 7)) (Z.shiftl ty 5)) vm))
  = Some (mkMemReg c p u b (wb || t) l vn vd (decode_imm_shift ty am) vm).
Proof.
  intros Hc Hvn Hvd Ham Hty Hvm Hx.
  assert (Hb := fun b => b2z_range b).
  assert (Hf : bits x 28 4 = c /\ bits x 25 3 = 3 /\ bits x 24 1 = b2z p /\ bits x 23 1 = 1 /\ bits x 22 1 = b2z b /\
    bits x 21 1 = Z.lor (b2z t) (b2z wb) /\ bits x 20 1 = b2z l /\ bits x 16 4 = vn /\ bits x 12 4 = vd /\
    bits x 7 5 = 0 /\ bits x 5 2 = 0 /\ bits x 4 1 = 0 /\ bits x 0 4 = 0).
  { subst x. pose proof (Hb p). pose proof (Hb b). pose proof (Hb t). pose proof (Hb l). pose proof (Hb wb).
    clear Hb. bits_norm. rewrite ?Z.shiftl_0_r. repeat split; reflexivity. }
  clear Hx. decompose [and] Hf. clear Hf.
  unfold decode_mem_reg. bits_norm.
  destruct u; cbn [negb]; unfold clear_bit;
    bits_clear;
    repeat match goal with H : bits x _ _ = _ |- _ => rewrite H end;
    rewrite ?Z.lor_0_l, ?Z.lor_0_r; cbn [Z.eqb Pos.eqb andb];
    rewrite !b2z_eqb; destruct t, wb; reflexivity.
Qed.

Lemma arm_mem_shift i ramPos e n f :
  In (i_op i) ArmOpcodes -> mem_reg_form (op_name (i_op i)) (op_mask (i_op i)) = Some f ->
  arm_in_wf i -> i_use_shift i = true -> i_shift_byreg i = false -> 0 <= i_shift_type i <= 4 ->
  i_s i = false ->
  e_shift e = Some n -> is_int32 n -> ~ (i_shift_type i = 3 /\ n = 32) ->
  match arm_assemble i ramPos e with
  | ROk w => exists sh ws,
      decode_mem_reg w = Some (mkMemReg (mf_cond f i) (mf_pre f) (i_signplus i) (mf_byte f) (i_writeback i || mf_t f)
                                 (mf_load f) (i_rn i) (mf_rd f i) sh (i_rm i)) /\
      written_shift (i_shift_type i) n = Some ws /\ shift_same sh ws
  | RErr => written_shift (i_shift_type i) n = None
  | RUb => False
  end.
Proof.
  intros Hin Hf Hwf Hus Hbr Hty Hs He Hn Hn32.
  pose proof memr_rows_ok as Hr. rewrite forallb_forall in Hr. specialize (Hr _ Hin).
  unfold memr_row_ok in Hr. rewrite Hf in Hr. row_facts Hr.
  destruct Hwf as (Hc & Hrd & Hrn & Hrm & _).
  unfold arm_assemble, arm_validate. rewrite Hus, Hbr, He.
  rewrite s32_small by exact Hn.
  pose proof (validate_shift_fields (i_shift_type i) n Hty Hn32) as Hv.
  cbn [andb negb].
  destruct (validate_shift (i_shift_type i) n) as [[t a]| |]; cbn [rbind]; [|exact Hv|exact Hv].
  destruct Hv as (Ht & Ha & ws & Hws & Hsame).
  repeat match goal with H : has _ _ = _ |- _ => rewrite H end. cbn [rbind andb].
  unfold arm_encode. cbn [o_newenc o_final o_newtype o_rn o_rm o_negative].
  repeat match goal with H : has _ _ = _ |- _ => rewrite H end.
  match goal with H : op_type _ = _ |- _ => rewrite H end. rewrite Hus, Hs.
  match goal with H : op_encoding _ = _ |- _ => rewrite H end.
  cbn [Z.eqb Pos.eqb ARM_TYPE3 ARM_TYPE4 ARM_TYPE5 ARM_TYPE6 ARM_TYPE7 ARM_TYPE9 rbind andb].
  exists (decode_imm_shift t a), ws. split; [|split; assumption].
  rewrite orif_field.
  apply mem_reg_word; try lia.
  - unfold mf_cond. destruct (mf_pld f); lia.
  - unfold mf_rd. destruct (mf_pld f); lia.
  - rewrite Z.lor_0_r. unfold mf_cond, mf_rd. destruct (mf_pld f); cbn [negb].
    + reflexivity.
    + rewrite !Z.shiftl_0_l, !Z.lor_0_r.
      apply Z.bits_inj'. intros j Hj. rewrite !Z.lor_spec. btauto.
Qed.
