(** Lemmas for ARM branches. *)

Require Import ZArith Lia Bool List String.
Require Import ZifyBool.
Require Import Verif.Ints Verif.IntsLemmas Verif.BitFields Verif.Res Verif.ArmModel Verif.ArmSpec Verif.ArmIface
  Verif.ArmProofs.
Import ListNotations.
Local Open Scope Z_scope.
Ltac Zify.zify_post_hook ::= Z.div_mod_to_equations.

(** * Branches *)

Definition br_row_ok (o : arm_opcode) : bool :=
  match branch_form (op_name o) (op_mask o) with
  | None => true
  | Some k =>
      (op_type o =? ARM_TYPE4) && has o ARM_IMMEDIATE && has o ARM_BRANCH && negb (has o ARM_SHIFT) &&
      negb (has o ARM_POOL) && negb (has o ARM_COPOP) && negb (has o ARM_COPINF) &&
      negb (has o ARM_RDEVEN) && negb (has o ARM_ABSIMM) &&
      match k with
      | BrB => (op_encoding o =? Z.shiftl 10 24) && negb (has o ARM_HALFWORD) && negb (has o ARM_UNCOND)
      | BrBL => (op_encoding o =? Z.shiftl 11 24) && negb (has o ARM_HALFWORD) && negb (has o ARM_UNCOND)
      | BrBLX => (op_encoding o =? Z.shiftl 250 24) && has o ARM_HALFWORD && has o ARM_UNCOND
      end
  end.
Lemma br_rows_ok : forallb br_row_ok ArmOpcodes = true.
Proof. vm_compute. reflexivity. Qed.

Lemma br_word c l x :
  0 <= c < 16 -> 0 <= l < 2 -> 0 <= x < 16777216 ->
  let w := u32 (Z.lor (Z.lor (Z.lor (Z.shiftl 5 25) (Z.shiftl l 24)) (Z.shiftl c 28)) x) in
  bits w 28 4 = c /\ bits w 24 1 = l /\ bits w 25 3 = 5 /\ bits w 0 24 = x.
Proof. intros Hc Hl Hx w. unfold w. clear w. bits_norm. repeat split; reflexivity. Qed.

Lemma br_offset d : -33554432 < d < 33554432 ->
  4 * sign_extend 24 ((d / 4) mod 16777216) = d - d mod 4.
Proof.
  intros H. unfold sign_extend. change (2 ^ (24 - 1)) with 8388608. change (2 ^ 24) with 16777216.
  destruct (Z.ltb_spec ((d / 4) mod 16777216) 8388608); lia.
Qed.

Lemma arm_branch i ramPos e z k :
  In (i_op i) ArmOpcodes -> branch_form (op_name (i_op i)) (op_mask (i_op i)) = Some k ->
  arm_in_wf i -> i_use_shift i = false -> i_bitlen i = 32 -> i_s i = false ->
  ramPos mod 4 = 0 -> e_imm e = IInt z ->
  match arm_assemble i ramPos e with
  | ROk w => decode_branch ramPos w = Some (k, branch_cond k i, u32 z)
  | RErr => z mod branch_align k <> 0 \/ 33554432 <= Z.abs (s32 (z - ramPos - 8))
  | RUb => u32 (z - ramPos - 8) = 2147483648
  end.
Proof.
  intros Hin Hf Hwf Hus Hbl Hs Hram Hz.
  pose proof br_rows_ok as Hr. rewrite forallb_forall in Hr. specialize (Hr _ Hin).
  unfold br_row_ok in Hr. rewrite Hf in Hr.
  repeat rewrite andb_true_iff in Hr. decompose [and] Hr. clear Hr.
  repeat match goal with
  | H : (_ =? _) = true |- _ => apply Z.eqb_eq in H
  | H : negb _ = true |- _ => apply negb_true_iff in H
  end.
  destruct Hwf as (Hc & _).
  unfold arm_assemble, arm_validate, validate_imm. rewrite Hz, Hus, Hbl.
  repeat match goal with H : has _ _ = _ |- _ => rewrite H end.
  cbn [andb rbind negb Z.eqb Pos.eqb].
  set (d := s32 (s32 z - ramPos - 8)).
  assert (Hd : s32 (z - ramPos - 8) = d).
  { unfold d, s32. cbv zeta.
    assert (E : (z - ramPos - 8) mod 4294967296 = (s32 z - ramPos - 8) mod 4294967296)
      by (pose proof (s32_mod z); lia).
    rewrite E. reflexivity. }
  assert (Hdr : -2147483648 <= d < 2147483648) by (unfold d; apply s32_range).
  assert (Hdm : d mod 4294967296 = (z - ramPos - 8) mod 4294967296)
    by (unfold d; rewrite s32_mod; pose proof (s32_mod z); lia).
  assert (Hfin : forall hw : bool,
    match (if negb (Z.land (s32 z) (if hw then 1 else 3) =? 0) then RErr else
           do a <- abs_int d; if a >=? 33554432 then RErr else ROk (mkImmOut d 0 false None None None)) with
    | ROk r => r = mkImmOut d 0 false None None None /\ -33554432 < d < 33554432 /\
               z mod (if hw then 2 else 4) = 0
    | RErr => z mod (if hw then 2 else 4) <> 0 \/ 33554432 <= Z.abs (s32 (z - ramPos - 8))
    | RUb => u32 (z - ramPos - 8) = 2147483648
    end).
  { intros hw. rewrite Hd.
    assert (Hl : (Z.land (s32 z) (if hw then 1 else 3) =? 0) = (z mod (if hw then 2 else 4) =? 0)).
    { pose proof (s32_mod z). destruct hw; [rewrite land_1|rewrite land_3];
      apply eq_true_iff_eq; rewrite !Z.eqb_eq; lia. }
    rewrite Hl. destruct (Z.eqb_spec (z mod (if hw then 2 else 4)) 0) as [E|E]; cbn [negb]; [|left; assumption].
    unfold abs_int. destruct (Z.eqb_spec d (-2147483648)) as [E2|E2]; cbn [rbind].
    - unfold u32. lia.
    - destruct (Z.geb_spec (Z.abs d) 33554432); [right; lia|]. split; [reflexivity|]. lia. }
  assert (Hsh : Z.land (Z.shiftr d 2) 16777215 = (d / 4) mod 16777216).
  { rewrite land_ffffff, shiftr_div by lia. reflexivity. }
  assert (Hx : 0 <= (d / 4) mod 16777216 < 16777216) by lia.
  destruct k; repeat rewrite andb_true_iff in *;
    match goal with H : _ /\ _ |- _ => destruct H as ((He & Hhw) & Hun) end;
    apply Z.eqb_eq in He; repeat match goal with H : negb _ = true |- _ => apply negb_true_iff in H end;
    rewrite Hhw; [specialize (Hfin false)|specialize (Hfin false)|specialize (Hfin true)]; cbn iota in Hfin;
    destruct (if negb (Z.land (s32 z) _ =? 0) then _ else _) as [r| |]; cbn [rbind];
    cbn [branch_align]; try exact Hfin;
    destruct Hfin as (-> & Hdd & Hal); unfold arm_encode; cbn [o_newenc o_final o_newtype o_imm o_shift_amount im_enc im_type im_imm];
    repeat match goal with H : has _ _ = _ |- _ => rewrite H end;
    rewrite He, Hs; match goal with H : op_type _ = _ |- _ => rewrite H end;
    cbn [Z.eqb Pos.eqb ARM_TYPE3 ARM_TYPE4 rbind andb]; rewrite Hsh.
  - change (Z.shiftl 10 24) with (Z.lor (Z.shiftl 5 25) (Z.shiftl 0 24)).
    destruct (br_word (i_c i) 0 _ ltac:(lia) ltac:(lia) Hx) as (F1 & F2 & F3 & F4).
    unfold decode_branch. rewrite F1, F2, F3, F4, br_offset by assumption.
    cbn [Z.eqb Pos.eqb]. replace (i_c i =? 15) with false by lia. cbn [branch_cond].
    f_equal. f_equal. unfold u32. lia.
  - change (Z.shiftl 11 24) with (Z.lor (Z.shiftl 5 25) (Z.shiftl 1 24)).
    destruct (br_word (i_c i) 1 _ ltac:(lia) ltac:(lia) Hx) as (F1 & F2 & F3 & F4).
    unfold decode_branch. rewrite F1, F2, F3, F4, br_offset by assumption.
    cbn [Z.eqb Pos.eqb]. replace (i_c i =? 15) with false by lia. cbn [branch_cond].
    f_equal. f_equal. unfold u32. lia.
  - assert (Hl2 : Z.land d 2 = 2 * ((d / 2) mod 2)).
    { change 2 with (Z.land 3 2) at 1. rewrite Z.land_assoc, land_3.
      assert (Hm : d mod 4 = 0 \/ d mod 4 = 1 \/ d mod 4 = 2 \/ d mod 4 = 3) by lia.
      destruct Hm as [Hm|[Hm|[Hm|Hm]]]; rewrite Hm.
      all: match goal with |- ?x = _ => let y := eval vm_compute in x in change x with y end; lia. }
    rewrite Hl2.
    assert (Hb2 : (d / 2) mod 2 = 0 \/ (d / 2) mod 2 = 1) by lia.
    destruct Hb2 as [Hb2|Hb2]; rewrite Hb2; cbn [Z.mul Z.eqb Pos.mul negb];
    [ change (Z.shiftl 250 24) with (Z.lor (Z.lor (Z.shiftl 5 25) (Z.shiftl 0 24)) (Z.shiftl 15 28));
      destruct (br_word 15 0 _ ltac:(lia) ltac:(lia) Hx) as (F1 & F2 & F3 & F4)
    | change (Z.lor (Z.shiftl 250 24) (Z.shiftl 1 24)) with (Z.lor (Z.lor (Z.shiftl 5 25) (Z.shiftl 1 24)) (Z.shiftl 15 28));
      destruct (br_word 15 1 _ ltac:(lia) ltac:(lia) Hx) as (F1 & F2 & F3 & F4) ];
    unfold decode_branch; rewrite F1, F2, F3, F4, br_offset by assumption;
    cbn [Z.eqb Pos.eqb branch_cond]; f_equal; f_equal; unfold u32; lia.
Qed.
