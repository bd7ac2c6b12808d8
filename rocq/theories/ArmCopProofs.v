(** Lemmas for ARM coprocessor instructions. *)

Require Import ZArith Lia Bool List String.
Require Import ZifyBool Btauto.
Require Import Verif.Ints Verif.IntsLemmas Verif.BitFields Verif.Res Verif.ArmModel Verif.ArmSpec Verif.ArmIface
  Verif.ArmProofs Verif.ArmShiftProofs.
Import ListNotations.
Local Open Scope Z_scope.
Ltac Zify.zify_post_hook ::= Z.div_mod_to_equations.

Definition cop_type (k : cop_kind) : Z :=
  match k with KCdp => ARM_TYPE14 | KMcr | KMrc => ARM_TYPE16 | KMcrr | KMrrc => ARM_TYPE17 end.
Definition cop_base (k : cop_kind) : Z :=
  match k with
  | KCdp => Z.shiftl 14 24
  | KMcr => Z.lor (Z.shiftl 14 24) (Z.shiftl 1 4)
  | KMrc => Z.lor (Z.lor (Z.shiftl 14 24) (Z.shiftl 1 20)) (Z.shiftl 1 4)
  | KMcrr => Z.shiftl 196 20
  | KMrrc => Z.shiftl 197 20
  end.
Definition cop_row_ok (o : arm_opcode) : bool :=
  match cop_form (op_name o) (op_mask o) with
  | None => true
  | Some (k, u, inf) =>
      (op_type o =? cop_type k) &&
      (op_encoding o =? Z.lor (cop_base k) (Z.shiftl (if u then 15 else 0) 28)) &&
      has o ARM_COPOP && Bool.eqb (has o ARM_COPINF) inf && negb (has o ARM_RDEVEN) &&
      negb (has o ARM_DN) && negb (has o ARM_IMMEDIATE) && negb (has o ARM_UNCOND && negb u)
  end.
Lemma cop_rows_ok : forallb cop_row_ok ArmOpcodes = true.
Proof. vm_compute. reflexivity. Qed.

Lemma shl_int_ok x n : 0 <= x -> shl_int x n = ROk (Z.shiftl x n).
Proof. intros. unfold shl_int. replace (x <? 0) with false by lia. reflexivity. Qed.

Lemma cop_cond u c x y : 0 <= c < 16 -> (y = true -> u = true) ->
  (if y then Z.lor x (Z.shiftl (if u then 15 else 0) 28)
   else Z.lor (Z.lor x (Z.shiftl (if u then 15 else 0) 28)) (Z.shiftl c 28)) =
  Z.lor x (Z.shiftl (if u then 15 else c) 28).
Proof.
  intros Hc H. destruct y; [rewrite H by reflexivity; reflexivity|].
  rewrite <- Z.lor_assoc. f_equal. destruct u.
  - apply Z.bits_inj'. intros j Hj. rewrite Z.lor_spec, !Z.shiftl_spec by lia.
    destruct (Z.ltb_spec j 28); [rewrite !Z.testbit_neg_r by lia; reflexivity|].
    destruct (Z.ltb_spec (j - 28) 4).
    + assert (E : j - 28 = 0 \/ j - 28 = 1 \/ j - 28 = 2 \/ j - 28 = 3) by lia.
      destruct E as [-> | [-> | [-> | ->]]]; reflexivity.
    + rewrite (testbit_small c 4) by lia. apply orb_false_r.
  - rewrite Z.shiftl_0_l. apply Z.lor_0_l.
Qed.

Lemma arm_cop i ramPos e k u inf p q :
  In (i_op i) ArmOpcodes -> cop_form (op_name (i_op i)) (op_mask (i_op i)) = Some (k, u, inf) ->
  arm_in_wf i -> i_use_shift i = false -> i_s i = false ->
  e_cpop e = Some p -> is_int32 p -> (if inf then e_cpinf e = Some q /\ is_int32 q else q = 0) ->
  0 <= p -> 0 <= q -> (p < 8 \/ cop_opc_max k = 15) ->
  match arm_assemble i ramPos e with
  | ROk w =>
      p <= cop_opc_max k /\ q <= 7 /\
      decode_cop w = Some (cop_build k (if u then 15 else i_c i) p q (i_pn i) (i_cd i) (i_cn i) (i_cm i) (i_rd i) (i_rn i))
  | RErr => 15 < p \/ 7 < q
  | RUb => False
  end.
Proof.
  intros Hin Hf Hwf Hus Hs Hp Hp32 Hq Hp0 Hq0 Hpk.
  pose proof cop_rows_ok as Hr. rewrite forallb_forall in Hr. specialize (Hr _ Hin).
  unfold cop_row_ok in Hr. rewrite Hf in Hr. row_facts Hr.
  destruct Hwf as (Hc & Hrd & Hrn & Hrm & Hrs & _ & Hcd & Hcn & Hcm & Hpn & _).
  assert (Hun : has (i_op i) ARM_UNCOND = true -> u = true)
    by (intros E; rewrite E in *; destruct u; [reflexivity|discriminate]).
  unfold arm_assemble, arm_validate. rewrite Hus, Hp.
  repeat match goal with H : has _ _ = _ |- _ => rewrite H end. cbn [rbind andb].
  rewrite s32_small by exact Hp32.
  destruct (Z.gtb_spec p 15) as [Hg|Hg]; cbn [rbind]; [left; lia|].
  assert (Hq2 : (if inf then match e_cpinf e with
     | Some n => if s32 n >? 7 then RErr else ROk (s32 n) | None => RErr end else ROk 0) = 
     if q >? 7 then RErr else ROk q).
  { destruct inf.
    - destruct Hq as (-> & Hq32). rewrite s32_small by exact Hq32. reflexivity.
    - subst q. reflexivity. }
  rewrite Hq2. destruct (Z.gtb_spec q 7) as [Hg7|Hg7]; cbn [rbind]; [right; lia|].
  unfold arm_encode. cbn [o_newenc o_final o_newtype o_rn o_rm o_cpop o_cpinf].
  repeat match goal with H : has _ _ = _ |- _ => rewrite H end.
  match goal with H : op_type _ = _ |- _ => rewrite H end. rewrite Hs.
  match goal with H : op_encoding _ = _ |- _ => rewrite H end.
  rewrite cop_cond by (assumption || lia).
  set (cond := if u then 15 else i_c i).
  assert (Hcond : 0 <= cond < 16) by (unfold cond; destruct u; lia).
  clearbody cond.
  assert (Hinf : forall x : Z, (if inf then ROk (Z.lor x (Z.shiftl q 5)) else ROk x) = ROk (Z.lor x (Z.shiftl q 5))).
  { intros x. destruct inf; [reflexivity|]. subst q. rewrite Z.shiftl_0_l, Z.lor_0_r. reflexivity. }
  revert Hp0 Hq0 Hg Hg7 Hpk Hcd Hcn Hcm Hpn Hrd Hrn Hcond Hinf. clear. intros.
  destruct k; cbn [cop_type cop_base Z.eqb Pos.eqb ARM_TYPE3 ARM_TYPE4 ARM_TYPE5 ARM_TYPE6 ARM_TYPE7 ARM_TYPE9
    ARM_TYPE10 ARM_TYPE11 ARM_TYPE12 ARM_MISC ARM_TYPE13 ARM_TYPE14 ARM_TYPE15 ARM_TYPE16 ARM_TYPE17 orb];
    rewrite !shl_int_ok by lia; cbn [rbind]; rewrite ?Hinf; cbn [rbind cop_opc_max cop_build] in *; (split; [lia|split; [lia|]]); clear Hinf;
    unfold decode_cop; bits_norm; cbn [Z.eqb Pos.eqb]; try reflexivity.
Qed.
