(** Lemmas for the ARM encoder properties. *)

Require Import ZArith Lia Bool List String.
Require Import ZifyBool.
Require Import Verif.Ints Verif.IntsLemmas Verif.BitFields Verif.Res Verif.ArmModel Verif.ArmSpec Verif.ArmIface
  Verif.ArmImmProofs.
Import ListNotations.
Local Open Scope Z_scope.
Ltac Zify.zify_post_hook ::= Z.div_mod_to_equations.

(** * Data processing with immediate *)

Definition is_some {A} (o : option A) : bool := match o with Some _ => true | None => false end.
Definition sel_is_rd s := match s with SelRd => true | _ => false end.
Definition sel_is_none s := match s with SelNone => true | _ => false end.
Definition b2z (b : bool) : Z := if b then 1 else 0.

(** The facts about the table rows that the proof uses, checked for all rows by computation. *)
Definition dp_row_ok (o : arm_opcode) : bool :=
  match dp_imm_form (op_name o) (op_mask o) with
  | None => true
  | Some (opc, sn, sd) =>
      (0 <=? opc) && (opc <? 16) &&
      (op_type o =? ARM_TYPE5) &&
      (op_encoding o =? Z.lor (Z.lor (Z.shiftl 1 25) (Z.shiftl opc 21)) (Z.shiftl (b2z (sel_is_none sd)) 20)) &&
      Bool.eqb (sel_is_none sd) (negb (dp_writes opc)) &&
      has o ARM_IMMEDIATE && has o ARM_SHIFT && negb (has o ARM_ABS) && negb (has o ARM_PCR) &&
      negb (has o ARM_UNCOND) && negb (has o ARM_COPOP) && negb (has o ARM_COPINF) &&
      negb (has o ARM_RDEVEN) && negb (has o ARM_ABSIMM) &&
      Bool.eqb (has o ARM_N) (negb (sel_is_none sn)) &&
      Bool.eqb (has o ARM_D) (negb (sel_is_none sd)) &&
      Bool.eqb (has o ARM_DN) (sel_is_rd sn) &&
      Bool.eqb (has o ARM_OPTIMIZE) (is_some (dp_complement opc 0)) &&
      Bool.eqb (has o ARM_OPMOVMVN) ((opc =? 13) || (opc =? 15)) &&
      Bool.eqb (has o ARM_OPANDBIC) ((opc =? 0) || (opc =? 14)) &&
      Bool.eqb (has o ARM_OPCMPCMN) ((opc =? 10) || (opc =? 11)) &&
      Bool.eqb (has o ARM_OPADDSUB) ((opc =? 2) || (opc =? 4))
  end.
Lemma dp_rows_ok : forallb dp_row_ok ArmOpcodes = true.
Proof. vm_compute. reflexivity. Qed.

Lemma not32_lnot v : u32 (Z.lnot (s32 v)) = not32 (u32 v).
Proof.
  unfold not32, Z.lnot. pose proof (s32_mod v). pose proof (s32_range v). unfold u32 in *. lia.
Qed.
Lemma u32_neg v : u32 (s32 (0 - s32 v)) = u32 (- u32 v).
Proof. rewrite u32_s32. pose proof (s32_mod v). unfold u32. lia. Qed.

Lemma land_not32 a b : 0 <= a < 4294967296 -> 0 <= b < 4294967296 ->
  not32 (not32 b) = b.
Proof. unfold not32. lia. Qed.

Lemma add_sub_same a v : 0 <= a < 4294967296 -> 0 < v < 4294967296 -> v <> 2147483648 ->
  add_with_carry a (not32 (u32 (- v))) true = add_with_carry a v false.
Proof.
  intros Ha Hv Hm. unfold add_with_carry, not32, u32.
  assert (E : (- v) mod 4294967296 = 4294967296 - v) by lia.
  rewrite E.
  replace (4294967295 - (4294967296 - v)) with (v - 1) by lia.
  replace (a + (v - 1) + 1) with (a + v) by lia.
  replace (a + v + 0) with (a + v) by lia.
  assert (Hs : s32 (v - 1) + 1 = s32 v).
  { unfold s32. cbv zeta. rewrite !Z.mod_small by lia.
    destruct (Z.ltb_spec (v - 1) 2147483648), (Z.ltb_spec v 2147483648); lia. }
  f_equal. f_equal. f_equal. f_equal. lia.
Qed.

(** The complementary instruction does the same, unless the constant is 0 or 2^31 (which are
    encodable, so the complement is not used for them). *)
Lemma dp_complement_same opc v opc' v' :
  0 <= v < 4294967296 -> v <> 0 -> v <> 2147483648 ->
  dp_complement opc v = Some (opc', v') -> dp_same opc v opc' v'.
Proof.
  intros Hv H0 H31 H.
  assert (Hn : 0 <= u32 (- v) < 4294967296) by apply u32_range.
  assert (Hnn : u32 (- u32 (- v)) = v) by (unfold u32; lia).
  unfold dp_complement in H.
  destruct opc as [|p|p]; try discriminate; [|];
    repeat (destruct p as [p|p|]; try discriminate); injection H as <- <-;
    (split; [reflexivity|]); intros a c Ha; eexists; (split; [reflexivity|]); cbn [dp_exec]; f_equal.
  all: try (unfold not32; replace (4294967295 - (4294967295 - v)) with v by lia; reflexivity).
  all: try (rewrite add_sub_same by lia; reflexivity).
  all: try (rewrite <- (add_sub_same a (u32 (- v))) by (unfold u32; lia); rewrite Hnn; reflexivity).
Qed.

Lemma encodable_0 : arm_encodable 0.
Proof. exists 0, 0. repeat split; try lia. Qed.
Lemma encodable_31 : arm_encodable 2147483648.
Proof. exists 2, 1. repeat split; lia. Qed.

(** [arm_optimize] is the complement. *)
Lemma optimize_complement o opc sn sd v :
  dp_imm_form (op_name o) (op_mask o) = Some (opc, sn, sd) -> dp_row_ok o = true ->
  has o ARM_OPTIMIZE = true ->
  exists opc' v', dp_complement opc (u32 v) = Some (opc', u32 v') /\ 0 <= opc' < 16 /\
    dp_writes opc' = dp_writes opc /\
    arm_optimize (op_flags o) (op_encoding o) (s32 v) =
      (Z.lor (Z.lor (Z.shiftl 1 25) (Z.shiftl opc' 21)) (Z.shiftl (b2z (negb (dp_writes opc))) 20), v').
Proof.
  intros Hf Hr Ho. unfold dp_row_ok in Hr. rewrite Hf in Hr.
  repeat rewrite andb_true_iff in Hr. decompose [and] Hr. clear Hr.
  repeat match goal with
  | H : Bool.eqb _ _ = true |- _ => apply eqb_prop in H
  | H : (_ =? _) = true |- _ => apply Z.eqb_eq in H
  end.
  rewrite Ho in *.
  assert (Hopc : 0 <= opc < 16) by lia.
  unfold arm_optimize. unfold has in *.
  repeat match goal with H : hasf _ _ = _ |- _ => rewrite H end.
  match goal with H : op_encoding o = _ |- _ => rewrite H end.
  assert (E : opc = 0 \/ opc = 2 \/ opc = 4 \/ opc = 10 \/ opc = 11 \/ opc = 13 \/ opc = 14 \/ opc = 15).
  { match goal with H : true = is_some _ |- _ => revert H end. clear - Hopc. intros H.
    unfold dp_complement in H.
    destruct opc as [|p|p]; try lia.
    repeat (destruct p as [p|p|]; try discriminate; try lia). }
  assert (Es : sel_is_none sd = negb (dp_writes opc)) by assumption.
  rewrite Es.
  repeat (destruct E as [E|E]); subst opc; cbn [Z.eqb Pos.eqb orb dp_complement].
  - exists 14, (Z.lnot (s32 v)). rewrite not32_lnot. repeat split; lia.
  - exists 4, (s32 (0 - s32 v)). rewrite u32_neg. repeat split; lia.
  - exists 2, (s32 (0 - s32 v)). rewrite u32_neg. repeat split; lia.
  - exists 11, (s32 (0 - s32 v)). rewrite u32_neg. repeat split; lia.
  - exists 10, (s32 (0 - s32 v)). rewrite u32_neg. repeat split; lia.
  - exists 15, (Z.lnot (s32 v)). rewrite not32_lnot. repeat split; lia.
  - exists 0, (Z.lnot (s32 v)). rewrite not32_lnot. repeat split; lia.
  - exists 13, (Z.lnot (s32 v)). rewrite not32_lnot. repeat split; lia.
Qed.

Lemma dp_encode_decode i st opc' sb r b sn sd opc :
  dp_imm_form (op_name (i_op i)) (op_mask (i_op i)) = Some (opc, sn, sd) ->
  dp_row_ok (i_op i) = true -> arm_in_wf i ->
  0 <= opc' < 16 -> 0 <= r < 16 -> 0 <= b < 256 ->
  o_final st = None -> o_shift_amount st = 2 * r -> o_imm st = b -> o_newtype st = None ->
  o_rn st = (if has (i_op i) ARM_DN then i_rd i else i_rn i) ->
  match o_newenc st with Some e => e | None => op_encoding (i_op i) end =
    Z.lor (Z.lor (Z.shiftl 1 25) (Z.shiftl opc' 21)) (Z.shiftl (b2z sb) 20) ->
  exists w, arm_encode i st = ROk w /\
    decode_dp_imm w = Some (mkDpImm (i_c i) opc' (i_s i || sb) (sel_value sn i) (sel_value sd i) (ror32 b (2 * r))).
Proof.
  intros Hf Hr Hwf Hopc' Hrr Hb Hfin Hsh Him Hnt Hrn Hne.
  unfold dp_row_ok in Hr. rewrite Hf in Hr.
  repeat rewrite andb_true_iff in Hr. decompose [and] Hr. clear Hr.
  repeat match goal with
  | H : Bool.eqb _ _ = true |- _ => apply eqb_prop in H
  | H : (_ =? _) = true |- _ => apply Z.eqb_eq in H
  | H : negb _ = true |- _ => apply negb_true_iff in H
  end.
  destruct Hwf as (Hc & Hrd & Hrn' & _).
  unfold arm_encode. rewrite Hfin, Hnt, Hne, Hsh, Him.
  repeat match goal with H : has _ _ = _ |- _ => rewrite H end.
  match goal with H : op_type _ = _ |- _ => rewrite H end.
  cbn [Z.eqb Pos.eqb ARM_TYPE3 ARM_TYPE4 ARM_TYPE5 ARM_SHIFT_LSL rbind].
  eexists. split; [reflexivity|].
  replace (Z.shiftl (2 * r) 7) with (Z.shiftl r 8).
  2:{ rewrite !shiftl_mul by lia. lia. }
  rewrite Hrn. match goal with H : has _ ARM_DN = _ |- _ => rewrite H end.
  assert (Hsb : 0 <= b2z sb < 2) by (destruct sb; cbn; lia).
  assert (Hi : exists si, 0 <= si < 2 /\ (si =? 1) = i_s i /\
     forall x, (if i_s i then Z.lor x (Z.shiftl 1 20) else x) = Z.lor x (Z.shiftl si 20)).
  { destruct (i_s i); [exists 1|exists 0]; repeat split; try lia. intros x.
    rewrite Z.shiftl_0_l, Z.lor_0_r. reflexivity. }
  destruct Hi as (si & Hsi & Hsi1 & Hsi2). rewrite Hsi2.
  set (xn := if negb (sel_is_none sn) then Z.lor _ _ else _).
  assert (Hxn : xn = Z.lor (Z.lor (Z.lor (Z.lor (Z.lor (Z.shiftl 1 25) (Z.shiftl opc' 21)) (Z.shiftl (b2z sb) 20))
      (Z.shiftl (i_c i) 28)) (Z.shiftl si 20)) (Z.shiftl (sel_value sn i) 16)).
  { unfold xn. destruct sn; cbn [sel_is_none sel_is_rd negb sel_value]; try reflexivity.
    rewrite Z.shiftl_0_l, Z.lor_0_r. reflexivity. }
  clearbody xn.
  set (xd := if negb (sel_is_none sd) then Z.lor _ _ else _).
  assert (Hsd : sd <> SelRn).
  { revert Hf. unfold dp_imm_form. repeat match goal with |- context [match ?x with _ => _ end] => destruct x end; congruence. }
  assert (Hxd : xd = Z.lor xn (Z.shiftl (sel_value sd i) 12)).
  { unfold xd. destruct sd; cbn [sel_is_none negb sel_value]; try reflexivity; try congruence.
    rewrite Z.shiftl_0_l, Z.lor_0_r. reflexivity. }
  clearbody xd. subst xd xn.
  assert (Hvn : 0 <= sel_value sn i < 16) by (destruct sn; cbn [sel_value]; lia).
  assert (Hvd : 0 <= sel_value sd i < 16) by (destruct sd; cbn [sel_value]; lia).
  generalize dependent (sel_value sn i). generalize dependent (sel_value sd i).
  generalize dependent (i_c i). intros c Hc vd Hvd vn Hvn.
  clear - Hc Hvd Hvn Hsb Hsi Hsi1 Hb Hrr Hopc'.
  unfold decode_dp_imm. bits_norm.
  cbn [Z.eqb Pos.eqb]. f_equal. f_equal.
  - rewrite <- Hsi1. assert (si = 0 \/ si = 1) as [-> | ->] by lia; destruct sb; reflexivity.
  - rewrite shiftl_mul by lia. rewrite lor_mul_pow2_small by lia.
    apply arm_expand_imm_fields; lia.
Qed.

Lemma dp_same_refl opc v : 0 <= opc < 16 -> dp_same opc v opc v.
Proof.
  intros H. split; [reflexivity|]. intros a c _.
  destruct (dp_exec opc a v c) eqn:E; [eauto|].
  exfalso. unfold dp_exec in E. destruct opc as [|p|p]; try discriminate; try lia.
  repeat (destruct p as [p|p|]; try discriminate; try lia).
Qed.

Lemma arm_dp_immediate i ramPos e z opc sn sd :
  In (i_op i) ArmOpcodes ->
  dp_imm_form (op_name (i_op i)) (op_mask (i_op i)) = Some (opc, sn, sd) ->
  arm_in_wf i -> i_use_shift i = false -> i_bitlen i = 32 ->
  imm_word (e_imm e) = Some z ->
  match arm_assemble i ramPos e with
  | ROk w =>
      exists opc' v',
        decode_dp_imm w = Some (mkDpImm (i_c i) opc' (i_s i || negb (dp_writes opc))
                                        (sel_value sn i) (sel_value sd i) v') /\
        ((opc' = opc /\ v' = z) \/
         (~ arm_encodable z /\ dp_complement opc z = Some (opc', v'))) /\
        dp_same opc z opc' v'
  | RErr =>
      ~ arm_encodable z /\
      (forall opc' v', dp_complement opc z = Some (opc', v') -> ~ arm_encodable v')
  | RUb => False
  end.
Proof.
  intros Hin Hf Hwf Hus Hbl Hz.
  assert (Hr : dp_row_ok (i_op i) = true).
  { pose proof dp_rows_ok as H. rewrite forallb_forall in H. apply H. exact Hin. }
  pose proof Hr as Hrow. unfold dp_row_ok in Hrow. rewrite Hf in Hrow.
  repeat rewrite andb_true_iff in Hrow. decompose [and] Hrow. clear Hrow.
  repeat match goal with
  | H : Bool.eqb _ _ = true |- _ => apply eqb_prop in H
  | H : (_ =? _) = true |- _ => apply Z.eqb_eq in H
  | H : negb _ = true |- _ => apply negb_true_iff in H
  end.
  assert (Hopc : 0 <= opc < 16) by lia.
  assert (Hex : exists v, z = u32 v /\
     match e_imm e with
     | IInt z => ROk (s32 z)
     | IFloat b => if negb (has (i_op i) ARM_SHIFT) && negb (has (i_op i) ARM_POOL) then RErr else ROk (s32 b)
     | IBad => RErr end = ROk (s32 v)).
  { destruct (e_imm e) as [v|v|]; cbn [imm_word] in Hz; try discriminate; injection Hz as <-; exists v;
    (split; [reflexivity|]); [reflexivity|].
    match goal with H : has _ ARM_SHIFT = true |- _ => rewrite H end. reflexivity. }
  destruct Hex as (v & -> & Hex).
  unfold arm_assemble, arm_validate, validate_imm, validate_shifted.
  rewrite Hex, Hus, Hbl. cbn [andb rbind].
  repeat match goal with H : has _ _ = _ |- _ =>
    lazymatch type of H with context [ARM_OPTIMIZE] => fail | _ => rewrite H end end.
  cbn [rbind andb negb Z.eqb Pos.eqb].
  pose proof (shifted_immediate_spec (s32 v)) as Hsp. rewrite u32_s32 in Hsp.
  destruct (getShiftedImmediate (s32 v)) as [[b sh]|].
  - destruct Hsp as (r & -> & Hrr & Hb & Hv & _). cbn [rbind].
    lazymatch goal with |- context [arm_encode i ?st] =>
      destruct (fun H => dp_encode_decode i st opc (sel_is_none sd) r b sn sd opc Hf Hr Hwf Hopc Hrr Hb
        eq_refl eq_refl eq_refl eq_refl H ltac:(assumption)) as (w & Hw & Hd) end.
    { cbn [o_rn]. match goal with H : has _ ARM_DN = _ |- _ => rewrite H end. reflexivity. }
    rewrite Hw. exists opc, (u32 v). split; [|split; [left; split; reflexivity| apply dp_same_refl; lia]].
    rewrite Hd, Hv. match goal with H : sel_is_none sd = _ |- _ => rewrite H end. reflexivity.
  - destruct (has (i_op i) ARM_OPTIMIZE) eqn:Hopt.
    + destruct (optimize_complement _ _ _ _ v Hf Hr Hopt) as (opc' & v' & Hcomp & Hopc' & Hwr & Hao).
      rewrite Hao.
      pose proof (shifted_immediate_spec v') as Hsp'.
      destruct (getShiftedImmediate v') as [[b sh]|].
      * destruct Hsp' as (r & -> & Hrr & Hb & Hv & _). cbn [rbind].
        lazymatch goal with |- context [arm_encode i ?st] =>
          destruct (fun H => dp_encode_decode i st opc' (negb (dp_writes opc)) r b sn sd opc Hf Hr Hwf Hopc' Hrr Hb
            eq_refl eq_refl eq_refl eq_refl H eq_refl) as (w & Hw & Hd) end.
        { cbn [o_rn]. match goal with H : has _ ARM_DN = _ |- _ => rewrite H end. reflexivity. }
        rewrite Hw. exists opc', (u32 v'). split; [|split; [right; split; assumption|]].
        -- rewrite Hd, Hv. reflexivity.
        -- apply dp_complement_same; try assumption.
           ++ apply u32_range.
           ++ intros E. apply Hsp. rewrite E. apply encodable_0.
           ++ intros E. apply Hsp. rewrite E. apply encodable_31.
      * cbn [rbind]. split; [assumption|]. intros opc2 v2 Hc2. rewrite Hcomp in Hc2. injection Hc2 as <- <-.
        assumption.
    + cbn [rbind]. split; [assumption|]. intros opc2 v2 Hc2.
      exfalso. match goal with H : false = is_some _ |- _ => revert H end.
      revert Hc2. clear. unfold dp_complement.
      destruct opc as [|p|p]; try discriminate.
      repeat (destruct p as [p|p|]; try discriminate).
Qed.
