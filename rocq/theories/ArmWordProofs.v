(** ARM words decode to the instructions that the source lines ask for. *)

Require Import ZArith Lia Bool List String Ascii.
Require Import ZifyBool Btauto.
Require Import Verif.Ints Verif.IntsLemmas Verif.BitFields Verif.Res Verif.ArmModel Verif.ArmSpec Verif.ArmIface
  Verif.ArmProofs Verif.ArmImmProofs Verif.ArmShiftProofs Verif.ArmBranchProofs Verif.ArmCopProofs Verif.ArmWordSpec.
Import ListNotations.
Local Open Scope Z_scope.
Ltac Zify.zify_post_hook ::= Z.div_mod_to_equations.

(** * Dispatch of the decoder *)

Lemma bits_nest w lo n lo' n' : 0 <= lo' -> 0 <= n' -> lo' + n' <= n -> 0 <= lo ->
  bits (bits w lo n) lo' n' = bits w (lo + lo') n'.
Proof.
  intros. apply Z.bits_inj'. intros j Hj. rewrite !bits_testbit by lia.
  destruct (Z.ltb_spec j n'); [cbn [andb]|reflexivity].
  replace (lo' + j <? n) with true by lia. cbn [andb]. f_equal. lia.
Qed.
Lemma opc_hi w : bits w 23 2 = bits w 21 4 / 4.
Proof.
  change 23 with (21 + 2). rewrite <- (bits_nest w 21 4 2 2) by lia.
  assert (B : 0 <= bits w 21 4 < 16) by (unfold bits; change (2 ^ 4) with 16; lia).
  generalize dependent (bits w 21 4). clear. intros x B. unfold bits. change (2 ^ 2) with 4. lia.
Qed.

(** Data processing: comparisons always set the flags. *)
Definition dp_fields_ok (cond opc : Z) (s : bool) : Prop := cond <> 15 /\ (8 <= opc <= 11 -> s = true).
Lemma misc_false w : (8 <= bits w 21 4 <= 11 -> flag w 20 = true) -> (bits w 23 2 =? 2) && negb (flag w 20) = false.
Proof.
  intros H. rewrite opc_hi. destruct (flag w 20) eqn:E; [apply andb_false_r|].
  cbn [negb]. rewrite andb_true_r. destruct (Z.eqb_spec (bits w 21 4 / 4) 2); [|reflexivity].
  exfalso. assert (8 <= bits w 21 4 <= 11) by lia. specialize (H H0). discriminate.
Qed.

Lemma decode_of_dp_imm addr w d : decode_dp_imm w = Some d -> dp_fields_ok (dp_cond d) (dp_opc d) (dp_s d) ->
  arm_decode addr w = Some (of_dp_imm d).
Proof.
  intros H (Hc & Hs). unfold arm_decode. pose proof H as H0. unfold decode_dp_imm in H0.
  destruct (Z.eqb_spec (bits w 25 3) 1) as [E|]; [|discriminate]. injection H0 as <-. cbn [dp_cond dp_opc dp_s] in *.
  rewrite (proj2 (Z.eqb_neq _ _) Hc), E. rewrite misc_false by exact Hs.
  unfold decode_dp_imm. rewrite E. reflexivity.
Qed.
Lemma decode_of_dp_reg addr w d : decode_dp_reg w = Some d -> dp_fields_ok (dr_cond d) (dr_opc d) (dr_s d) ->
  arm_decode addr w = Some (of_dp_reg d).
Proof.
  intros H (Hc & Hs). unfold arm_decode. pose proof H as H0. unfold decode_dp_reg in H0.
  destruct (Z.eqb_spec (bits w 25 3) 0) as [E|]; [|discriminate].
  destruct (Z.eqb_spec (bits w 4 1) 0) as [E4|]; [|discriminate]. injection H0 as <-. cbn [dr_cond dr_opc dr_s] in *.
  rewrite (proj2 (Z.eqb_neq _ _) Hc), E. rewrite misc_false by exact Hs.
  unfold flag. rewrite E4. cbn [Z.eqb andb].
  unfold decode_dp_reg. rewrite E, E4. reflexivity.
Qed.
Lemma decode_of_dp_rsr addr w d : decode_dp_rsr w = Some d -> dp_fields_ok (ds_cond d) (ds_opc d) (ds_s d) ->
  arm_decode addr w = Some (of_dp_rsr d).
Proof.
  intros H (Hc & Hs). unfold arm_decode. pose proof H as H0. unfold decode_dp_rsr in H0.
  destruct (Z.eqb_spec (bits w 25 3) 0) as [E|]; [|discriminate].
  destruct (Z.eqb_spec (bits w 4 1) 1) as [E4|]; [|discriminate].
  destruct (Z.eqb_spec (bits w 7 1) 0) as [E7|]; [|discriminate]. injection H0 as <-. cbn [ds_cond ds_opc ds_s] in *.
  rewrite (proj2 (Z.eqb_neq _ _) Hc), E. rewrite misc_false by exact Hs.
  unfold flag. rewrite E4, E7. cbn [Z.eqb Pos.eqb andb].
  unfold decode_dp_rsr. rewrite E, E4, E7. reflexivity.
Qed.
Lemma decode_of_mem_reg addr w m : decode_mem_reg w = Some m -> mr_cond m <> 15 -> arm_decode addr w = Some (of_mem_reg m).
Proof.
  intros H Hc. unfold arm_decode. pose proof H as H0. unfold decode_mem_reg in H0.
  destruct (Z.eqb_spec (bits w 25 3) 3) as [E|]; [|discriminate].
  destruct (Z.eqb_spec (bits w 4 1) 0) as [E4|]; [|discriminate]. injection H0 as <-. cbn [mr_cond] in *.
  rewrite (proj2 (Z.eqb_neq _ _) Hc), E. unfold decode_mem_reg. rewrite E, E4. reflexivity.
Qed.
Lemma decode_of_branch addr w b : decode_branch addr w = Some b -> arm_decode addr w = Some (of_branch b).
Proof.
  intros H. unfold arm_decode, decode_uncond. pose proof H as H0. unfold decode_branch in H0.
  destruct (Z.eqb_spec (bits w 25 3) 5) as [E|]; [|discriminate]. rewrite H, E. destruct (bits w 28 4 =? 15); reflexivity.
Qed.
Lemma hi_class w : bits w 25 3 = bits w 24 4 / 2 /\ bits w 24 1 = bits w 24 4 mod 2 /\ bits w 25 3 = bits w 20 8 / 32
  /\ bits w 24 4 = bits w 20 8 / 16.
Proof.
  assert (E0 : bits w 24 1 = bits (bits w 20 8) 4 1) by (rewrite (bits_nest w 20 8 4 1) by lia; reflexivity).
  assert (E1 : bits w 25 3 = bits (bits w 20 8) 5 3) by (rewrite (bits_nest w 20 8 5 3) by lia; reflexivity).
  assert (E2 : bits w 24 4 = bits (bits w 20 8) 4 4) by (rewrite (bits_nest w 20 8 4 4) by lia; reflexivity).
  rewrite E0, E1, E2.
  assert (B : 0 <= bits w 20 8 < 256) by (unfold bits; change (2 ^ 8) with 256; lia).
  generalize dependent (bits w 20 8). clear. intros x B. unfold bits.
  change (2 ^ 1) with 2. change (2 ^ 0) with 1. change (2 ^ 5) with 32. change (2 ^ 4) with 16. change (2 ^ 3) with 8. lia.
Qed.
Lemma decode_of_cop addr w c : decode_cop w = Some c ->
  (bits w 28 4 = 15 -> bits w 24 4 = 14) -> arm_decode addr w = Some (ACop c).
Proof.
  intros H Hu. unfold arm_decode, decode_uncond. pose proof H as H0. unfold decode_cop in H0.
  destruct (hi_class w) as (A & B & C & D). unfold flag.
  destruct (Z.eqb_spec (bits w 24 4) 14) as [E|N].
  - rewrite E in A, B. rewrite H, A, B. change (14 / 2) with 7. change (14 mod 2) with 0.
    destruct (bits w 28 4 =? 15); [|reflexivity]. cbn [Z.eqb Pos.eqb andb].
    rewrite andb_false_r. reflexivity.
  - destruct (Z.eqb_spec (bits w 28 4) 15) as [E15|]; [exfalso; auto|].
    destruct (Z.eqb_spec (bits w 20 8) 196) as [E|].
    + rewrite E in C. rewrite C, H. reflexivity.
    + destruct (Z.eqb_spec (bits w 20 8) 197) as [E|]; [|discriminate]. rewrite E in C. rewrite C, H. reflexivity.
Qed.
