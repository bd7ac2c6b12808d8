(** Proofs about the macros for absolute values and rotations. *)

Require Import ZArith Lia Bool List String Ascii.
Require Import ZifyBool.
Require Import Verif.Ints Verif.IntsLemmas Verif.BitFields Verif.Res Verif.MipsTable Verif.MipsModel Verif.MipsSpec
  Verif.MipsProofs Verif.MipsWordProofs Verif.MipsCpu Verif.MipsDecodeProofs Verif.MipsMacroModel Verif.MipsExecProofs
  Verif.MipsMacroSpec Verif.MipsMacroProofs Verif.MipsCompareProofs.
Import ListNotations.
Local Open Scope string_scope.
Local Open Scope list_scope.
Local Open Scope Z_scope.

(** ** Numbers *)

Lemma lxor_ones v : 0 <= v < 4294967296 -> Z.lxor v 4294967295 = 4294967295 - v.
Proof.
  intros V. change 4294967295 with (Z.ones 32). rewrite Z.sub_nocarry_ldiff.
  - apply Z.bits_inj'. intros n N. rewrite Z.lxor_spec, Z.ldiff_spec, Z.testbit_ones_nonneg by lia. destruct (Z.ltb_spec n 32).
    + destruct (Z.testbit v n); reflexivity.
    + replace (Z.testbit v n) with false; [reflexivity|]. symmetry. destruct (Z.eq_dec v 0) as [->|NZ]; [apply Z.testbit_0_l|].
      apply Z.bits_above_log2; [lia|]. apply Z.log2_lt_pow2; [lia|]. apply Z.lt_le_trans with (2 ^ 32); [lia|]. apply Z.pow_le_mono_r; lia.
  - destruct (Z.eq_dec v 0) as [->|NZ]; [reflexivity|]. apply Z.ldiff_ones_r_low; [lia|]. apply Z.log2_lt_pow2; lia.
Qed.
Lemma abs_value v : 0 <= v < 4294967296 ->
  u32 (u32 (Z.lxor v (u32 (s32 v / 2 ^ (31 mod 32)))) - u32 (s32 v / 2 ^ (31 mod 32))) = u32 (Z.abs (s32 v)).
Proof.
  intros V. change (2 ^ (31 mod 32)) with 2147483648. destruct (Z_lt_dec v 2147483648) as [L|L].
  - assert (s32 v = v) as -> by (apply s32_small; lia). rewrite Z.div_small by lia. change (u32 0) with 0.
    rewrite Z.lxor_0_r, (u32_small v), Z.sub_0_r, Z.abs_eq by lia. reflexivity.
  - assert (E : s32 v = v - 4294967296) by (unfold s32; cbv zeta; rewrite Z.mod_small by lia; destruct (Z.ltb_spec v 2147483648); [contradiction|reflexivity]).
    rewrite E. replace ((v - 4294967296) / 2147483648) with (-1) by (apply Z.div_unique with (v - 2147483648); lia). change (u32 (-1)) with 4294967295.
    rewrite lxor_ones by exact V. rewrite (u32_small (4294967295 - v)) by lia. apply (u32_cong _ _ (-1)). lia.
Qed.
Lemma shl_parts v k : 0 <= v < 4294967296 -> 0 <= k <= 32 -> u32 (v * 2 ^ k) = v mod 2 ^ (32 - k) * 2 ^ k.
Proof.
  intros V K. unfold u32. replace 4294967296 with (2 ^ (32 - k) * 2 ^ k) by (rewrite <- Z.pow_add_r by lia; replace (32 - k + k) with 32 by lia; reflexivity).
  apply Z.mul_mod_distr_r; [|apply Z.pow_nonzero; lia]. apply Z.pow_nonzero; lia.
Qed.
Lemma shr_small v k : 0 <= v < 4294967296 -> 0 <= k -> 0 <= v / 2 ^ k < 4294967296.
Proof.
  intros V K. assert (1 <= 2 ^ k) by (change 1 with (2 ^ 0); apply Z.pow_le_mono_r; lia). split; [apply Z.div_pos; lia|].
  apply Z.div_lt_upper_bound; nia.
Qed.
Lemma shr_top v k : 0 <= v < 4294967296 -> 0 <= k <= 32 -> 0 <= v / 2 ^ (32 - k) < 2 ^ k.
Proof.
  intros V K. assert (0 < 2 ^ (32 - k)) by (apply Z.pow_pos_nonneg; lia). split; [apply Z.div_pos; lia|].
  apply Z.div_lt_upper_bound; [lia|]. rewrite <- Z.pow_add_r by lia. replace (32 - k + k) with 32 by lia. change (2 ^ 32) with 4294967296. lia.
Qed.
Lemma rotated_small left v n : 0 <= v < 4294967296 -> 0 <= rotated left v n < 4294967296.
Proof.
  intros V. unfold rotated. cbv zeta. pose proof (Z.mod_pos_bound n 32 ltac:(lia)) as K. set (k := n mod 32) in *. change (2 ^ 32) with 4294967296.
  fold (u32 (v * 2 ^ k)). fold (u32 (v * 2 ^ (32 - k))). destruct left.
  - rewrite shl_parts by lia. pose proof (shr_top v k V ltac:(lia)). pose proof (Z.mod_pos_bound v (2 ^ (32 - k)) ltac:(apply Z.pow_pos_nonneg; lia)).
    assert (2 ^ (32 - k) * 2 ^ k = 4294967296) by (rewrite <- Z.pow_add_r by lia; replace (32 - k + k) with 32 by lia; reflexivity). nia.
  - rewrite shl_parts by lia. replace (32 - (32 - k)) with k by lia. pose proof (Z.mod_pos_bound v (2 ^ k) ltac:(apply Z.pow_pos_nonneg; lia)).
    pose proof (shr_top v (32 - k) V ltac:(lia)) as H1. replace (32 - (32 - k)) with k in H1 by lia.
    assert (2 ^ k * 2 ^ (32 - k) = 4294967296) by (rewrite <- Z.pow_add_r by lia; replace (k + (32 - k)) with 32 by lia; reflexivity). nia.
Qed.
Lemma rotated_none left v n : 0 <= v < 4294967296 -> n mod 32 = 0 -> rotated left v n = v.
Proof.
  intros V N. unfold rotated. rewrite N. cbv zeta. change (32 - 0) with 32. change (2 ^ 0) with 1. change (2 ^ 32) with 4294967296.
  rewrite Z.mul_1_r, Z_mod_mult, Z.div_1_r, (Z.mod_small v), (Z.div_small v) by lia. destruct left; lia.
Qed.
Lemma minus_mod n : (- n) mod 32 = if n mod 32 =? 0 then 0 else 32 - n mod 32.
Proof. destruct (Z.eqb_spec (n mod 32) 0); Z.div_mod_to_equations; lia. Qed.
Lemma left_parts v n : 0 <= v < 4294967296 -> u32 (Z.lor (u32 (v * 2 ^ (n mod 32))) (u32 (v / 2 ^ ((- n) mod 32)))) = rotated true v n.
Proof.
  intros V. pose proof (Z.mod_pos_bound n 32 ltac:(lia)) as K. pose proof (Z.mod_pos_bound (- n) 32 ltac:(lia)).
  rewrite (u32_small (v / _)) by (apply shr_small; lia). rewrite minus_mod. destruct (Z.eqb_spec (n mod 32) 0) as [E|E].
  - rewrite rotated_none by assumption. rewrite E. change (2 ^ 0) with 1. rewrite Z.mul_1_r, Z.div_1_r, (u32_small v V), Z.lor_diag. apply u32_small, V.
  - rewrite <- (u32_small (rotated true v n)) by (apply rotated_small, V). f_equal. unfold rotated. cbv zeta. set (k := n mod 32) in *.
    change (2 ^ 32) with 4294967296. fold (u32 (v * 2 ^ k)). rewrite shl_parts by lia. rewrite lor_mul_pow2_small; [reflexivity|lia|apply shr_top; lia].
Qed.
Lemma right_parts v n : 0 <= v < 4294967296 -> u32 (Z.lor (u32 (v / 2 ^ (n mod 32))) (u32 (v * 2 ^ ((- n) mod 32)))) = rotated false v n.
Proof.
  intros V. pose proof (Z.mod_pos_bound n 32 ltac:(lia)) as K. pose proof (Z.mod_pos_bound (- n) 32 ltac:(lia)).
  rewrite (u32_small (v / _)) by (apply shr_small; lia). rewrite minus_mod. destruct (Z.eqb_spec (n mod 32) 0) as [E|E].
  - rewrite rotated_none by assumption. rewrite E. change (2 ^ 0) with 1. rewrite Z.mul_1_r, Z.div_1_r, (u32_small v V), Z.lor_diag. apply u32_small, V.
  - rewrite <- (u32_small (rotated false v n)) by (apply rotated_small, V). f_equal. unfold rotated. cbv zeta. set (k := n mod 32) in *.
    change (2 ^ 32) with 4294967296. fold (u32 (v * 2 ^ (32 - k))). rewrite shl_parts by lia. rewrite Z.lor_comm, lor_mul_pow2_small; [lia|lia|].
    pose proof (shr_top v (32 - k) V ltac:(lia)) as H1. replace (32 - (32 - k)) with k in H1 by lia. exact H1.
Qed.
Lemma rotate_right_is v n : 0 <= v < 4294967296 -> u32 (rotate_right v (n mod 32)) = rotated false v n.
Proof.
  intros V. pose proof (Z.mod_pos_bound n 32 ltac:(lia)) as K. rewrite <- (u32_small (rotated false v n)) by (apply rotated_small, V). f_equal.
  unfold rotate_right, rotated. cbv zeta. set (k := n mod 32) in *. change (2 ^ 32) with 4294967296. fold (u32 (v * 2 ^ (32 - k))). rewrite shl_parts by lia.
  replace (32 - (32 - k)) with k by lia. reflexivity.
Qed.
Lemma rotated_back v n : 0 <= v < 4294967296 -> rotated false v (- n) = rotated true v n.
Proof.
  intros V. destruct (Z.eq_dec (n mod 32) 0) as [E|E].
  - rewrite !rotated_none; try assumption; [reflexivity|]. rewrite minus_mod, E. reflexivity.
  - unfold rotated. rewrite minus_mod. destruct (Z.eqb_spec (n mod 32) 0); [contradiction|]. cbv zeta.
    replace (32 - (32 - n mod 32)) with (n mod 32) by lia. lia.
Qed.
Lemma back_mod z : Z.land (s64 (- z)) 31 = (- z) mod 32.
Proof.
  change 31 with (2 ^ 5 - 1). rewrite land_ones by lia. change (2 ^ 5) with 32. unfold s64. cbv zeta.
  set (m := (- z) mod 18446744073709551616). assert (M : m mod 32 = (- z) mod 32) by (unfold m; Z.div_mod_to_equations; lia).
  destruct (m <? _); [exact M|]. rewrite <- M. replace (m - 18446744073709551616) with (m + (- 576460752303423488) * 32) by lia. apply Z_mod_plus_full.
Qed.

(** ** Lines *)

Lemma sets_at_same c n v : n <> 0 -> 0 <= v < 4294967296 -> sets_at c n v (set c n v).
Proof.
  intros N V. split; [rewrite set_same by exact N; apply u32_small, V|]. split; [|apply set_ram]. intros r R _. apply set_other, R.
Qed.
Lemma sets_at_first c x v c' n : sets_at (set c 1 x) n v c' -> sets_at c n v c'.
Proof.
  intros (A & B & M). split; [exact A|]. split; [|rewrite M; apply set_ram]. intros r R R1. rewrite (B r R R1). apply set_other, R1.
Qed.
Lemma sets_at_again c n x v c' : sets_at (set c n x) n v c' -> sets_at c n v c'.
Proof.
  intros (A & B & M). split; [exact A|]. split; [|rewrite M; apply set_ram]. intros r R R1. rewrite (B r R R1). apply set_other, R.
Qed.
Lemma sets_at_set c n x v : n <> 0 -> u32 x = v -> sets_at c n v (set c n x).
Proof. intros N <-. split; [apply set_same, N|]. split; [intros r R _; apply set_other, R|apply set_ram]. Qed.
Lemma run_next ws1 ws2 c c1 (P : cpu -> Prop) : run ws1 c = Some c1 -> (exists c', run ws2 c1 = Some c' /\ P c') ->
  exists c', run (ws1 ++ ws2) c = Some c' /\ P c'.
Proof. intros R (c' & R2 & H). exists c'. split; [rewrite run_app, R; exact R2|exact H]. Qed.

Lemma abs_run f arch pc p q d a ws c : coded f arch pc (ln "abs" [p; q]) ws -> register Gpr p = Some d -> register Gpr q = Some a ->
  sane c -> d <> 0 -> d <> 1 -> a <> 1 -> exists c', run ws c = Some c' /\ sets_at c d (u32 (Z.abs (s32 (reg c a)))) c'.
Proof.
  intros C D A SC D0 D1 A1. pose proof (sane_reg c a SC) as RA.
  assert (F : exists m ar, find_macro mipsMacros "abs" (commas [p; q]) = Some (m, ar) /\ k_gen m = GAbs /\ Z.land (k_flags m) MIPSM_ACCESSMASK = MIPSM_W /\
    a_rd ar = reg_text p /\ a_rs ar = reg_text q) by (eexists; eexists; split; [fit|repeat split]).
  destruct F as (m & ar & F & G & FL & RD & RS). destruct (coded_macro _ _ _ _ _ _ _ C F) as (f' & ls & -> & GE & AC).
  unfold generate in GE. rewrite G in GE. unfold generate_abs in GE. rewrite FL, RD, RS in GE. apply ROk_inj in GE. subst ls.
  rewrite <- (register_text Gpr p) in D. rewrite <- (register_text Gpr q) in A.
  next AC w1 L1. eapply run_next; [exact (exec_shift "sra" 3 _ _ _ _ _ _ _ _ _ _ _ ltac:(apply in_imm; reflexivity) L1 reg_r1 A (int_im 31))|].
  cbn [shift]. next AC w2 L2.
  eapply run_next; [exact (exec_alu "xor" 0x26 _ _ _ _ _ _ _ _ _ _ _ ltac:(apply in_imm; reflexivity) L2 D A reg_r1)|]. cbn [alu].
  next AC w3 L3. ended AC. eexists. split; [exact (exec_alu "subu" 0x23 _ _ _ _ _ _ _ _ _ _ _ ltac:(apply in_imm; reflexivity) L3 D D reg_r1)|].
  cbn [alu]. eapply sets_at_first, sets_at_again, sets_at_set; [exact D0|].
  rewrite set_same by exact D0. rewrite (set_other _ d) by lia. rewrite !set_same, (set_other _ 1) by lia. apply abs_value, RA.
Qed.

Lemma rot_find_imm left p q r d a v : register Gpr p = Some d -> register Gpr q = Some a -> parse_immediate r = Some v -> register Gpr r = None ->
  exists m ar, find_macro mipsMacros (rot_name left) (commas [p; q; r]) = Some (m, ar) /\ k_gen m = GRotate /\
    has (k_flags m) MIPSM_LEFT = left /\ has (k_flags m) MIPSM_IMM = true /\ a_rd ar = reg_text p /\ a_rs ar = reg_text q /\ a_i ar = Some v.
Proof. intros D A I NR. destruct left; cbn [rot_name]; (eexists; eexists; split; [fit|repeat split]). Qed.
Lemma rot_find_reg left p q r d a t : register Gpr p = Some d -> register Gpr q = Some a -> register Gpr r = Some t ->
  exists m ar, find_macro mipsMacros (rot_name left) (commas [p; q; r]) = Some (m, ar) /\ k_gen m = GRotate /\
    has (k_flags m) MIPSM_LEFT = left /\ has (k_flags m) MIPSM_IMM = false /\ a_rd ar = reg_text p /\ a_rs ar = reg_text q /\ a_rt ar = reg_text r.
Proof. intros D A T. destruct left; cbn [rot_name]; (eexists; eexists; split; [fit|repeat split]). Qed.

Ltac names := apply in_imm; reflexivity.
Lemma rot_imm_run f arch pc left p q r d a z ws c : coded f arch pc (ln (rot_name left) [p; q; r]) ws -> register Gpr p = Some d -> register Gpr q = Some a ->
  integer r = Some z -> sane c -> d <> 0 -> d <> 1 -> a <> 1 -> exists c', run ws c = Some c' /\ sets_at c d (rotated left (reg c a) z) c'.
Proof.
  intros C D A I SC D0 D1 A1. pose proof (sane_reg c a SC) as RA. destruct (integer_immediate _ _ I) as [h I'].
  destruct (rot_find_imm left _ _ _ _ _ _ D A I' (integer_not_register _ _ I)) as (m & ar & F & G & LF & IM & RD & RS & AI).
  destruct (coded_macro _ _ _ _ _ _ _ C F) as (f' & ls & -> & GE & AC).
  unfold generate in GE. rewrite G in GE. unfold generate_rotate in GE. rewrite LF, IM, RD, RS, AI in GE. cbn [with_int] in GE.
  rewrite <- (register_text Gpr p) in D. rewrite <- (register_text Gpr q) in A. rewrite back_mod in GE.
  assert (BK : (- z) mod 32 mod 32 = (- z) mod 32) by (apply Z.mod_mod; lia).
  destruct (z =? 0) eqn:Z1; cbn [negb] in GE.
  - apply ROk_inj in GE. subst ls. apply Z.eqb_eq in Z1. subst z. next AC w1 L1. ended AC.
    eexists. split; [exact (exec_move _ _ _ _ _ _ _ _ _ L1 D A)|]. rewrite (proj1 SC), Z.add_0_r.
    apply sets_at_set; [exact D0|]. rewrite rotated_none by (exact RA || reflexivity). apply u32_small, RA.
  - assert (PSPC : forall x, (exists m, all_coded f' arch pc [ln "rotr" [reg_text p; reg_text q; im m]] ws /\ x = m mod 32) ->
      exists c', run ws c = Some c' /\ sets_at c d (rotated false (reg c a) x) c').
    { intros x (m' & AC' & ->). next AC' w1 L1. ended AC'.
      eexists. split; [exact (exec_shift "rotr" (2 + 2 ^ 21) _ _ _ _ _ _ _ _ _ _ _ ltac:(names) L1 D A (int_im _))|]. cbn [shift].
      apply sets_at_set; [exact D0|]. change (2 + 2 ^ 21) with 2097154. cbn [shift]. rewrite rotate_right_is by exact RA. unfold rotated. rewrite Z.mod_mod by lia. reflexivity. }
    destruct (match arch with PSP => true | _ => false end) eqn:PS; destruct left; apply ROk_inj in GE; subst ls.
    + rewrite <- rotated_back by exact RA. destruct (PSPC ((- z) mod 32)) as (c' & R & H); [eexists; split; [exact AC|symmetry; exact BK]|].
      exists c'. split; [exact R|]. unfold rotated in H |- *. rewrite BK in H. exact H.
    + destruct (PSPC (z mod 32)) as (c' & R & H); [eexists; split; [exact AC|reflexivity]|].
      exists c'. split; [exact R|]. unfold rotated in H |- *. rewrite Z.mod_mod in H by lia. exact H.
    + next AC w1 L1. eapply run_next; [exact (exec_shift "srl" 2 _ _ _ _ _ _ _ _ _ _ _ ltac:(names) L1 reg_r1 A (int_im _))|]. cbn [shift].
      next AC w2 L2. eapply run_next; [exact (exec_shift "sll" 0 _ _ _ _ _ _ _ _ _ _ _ ltac:(names) L2 D A (int_im _))|]. cbn [shift].
      next AC w3 L3. ended AC. eexists. split; [exact (exec_alu "or" 0x25 _ _ _ _ _ _ _ _ _ _ _ ltac:(names) L3 D D reg_r1)|]. cbn [alu].
      eapply sets_at_first, sets_at_again, sets_at_set; [exact D0|].
      rewrite set_same by exact D0. rewrite (set_other _ d) by lia. rewrite !set_same, (set_other _ 1) by lia. rewrite BK. apply left_parts, RA.
    + next AC w1 L1. eapply run_next; [exact (exec_shift "sll" 0 _ _ _ _ _ _ _ _ _ _ _ ltac:(names) L1 reg_r1 A (int_im _))|]. cbn [shift].
      next AC w2 L2. eapply run_next; [exact (exec_shift "srl" 2 _ _ _ _ _ _ _ _ _ _ _ ltac:(names) L2 D A (int_im _))|]. cbn [shift].
      next AC w3 L3. ended AC. eexists. split; [exact (exec_alu "or" 0x25 _ _ _ _ _ _ _ _ _ _ _ ltac:(names) L3 D D reg_r1)|]. cbn [alu].
      eapply sets_at_first, sets_at_again, sets_at_set; [exact D0|].
      rewrite set_same by exact D0. rewrite (set_other _ d) by lia. rewrite !set_same, (set_other _ 1) by lia. rewrite BK. apply right_parts, RA.
Qed.
Lemma neg_mod v : u32 (0 - v) mod 32 = (- v) mod 32.
Proof. unfold u32. Z.div_mod_to_equations. lia. Qed.
Lemma rot_reg_run f arch pc left p q r d a t ws c : coded f arch pc (ln (rot_name left) [p; q; r]) ws -> register Gpr p = Some d -> register Gpr q = Some a ->
  register Gpr r = Some t -> sane c -> d <> 0 -> d <> 1 -> a <> 1 -> t <> 1 -> exists c', run ws c = Some c' /\ sets_at c d (rotated left (reg c a) (reg c t)) c'.
Proof.
  intros C D A T SC D0 D1 A1 T1. pose proof (sane_reg c a SC) as RA. pose proof (proj1 SC) as Z0.
  destruct (rot_find_reg left _ _ _ _ _ _ D A T) as (m & ar & F & G & LF & IM & RD & RS & RT).
  destruct (coded_macro _ _ _ _ _ _ _ C F) as (f' & ls & -> & GE & AC).
  unfold generate in GE. rewrite G in GE. unfold generate_rotate in GE. rewrite LF, IM, RD, RS, RT in GE.
  rewrite <- (register_text Gpr p) in D. rewrite <- (register_text Gpr q) in A. rewrite <- (register_text Gpr r) in T.
  destruct (match arch with PSP => true | _ => false end) eqn:PS; destruct left; apply ROk_inj in GE; subst ls.
  - next AC w1 L1. eapply run_next; [exact (exec_negu _ _ _ _ _ _ _ _ _ L1 reg_r1 T)|].
    next AC w2 L2. ended AC. eexists. split; [exact (exec_shiftv "rotrv" (6 + 2 ^ 6) _ _ _ _ _ _ _ _ _ _ _ ltac:(names) L2 D A reg_r1)|].
    eapply sets_at_first, sets_at_set; [exact D0|]. change (6 + 2 ^ 6) with 70. cbn [shiftv]. rewrite set_same, set_other, Z0, neg_mod by lia.
    rewrite rotate_right_is by exact RA. apply rotated_back, RA.
  - next AC w2 L2. ended AC. eexists. split; [exact (exec_shiftv "rotrv" (6 + 2 ^ 6) _ _ _ _ _ _ _ _ _ _ _ ltac:(names) L2 D A T)|].
    apply sets_at_set; [exact D0|]. change (6 + 2 ^ 6) with 70. cbn [shiftv]. apply rotate_right_is, RA.
  - next AC w1 L1. eapply run_next; [exact (exec_negu _ _ _ _ _ _ _ _ _ L1 reg_r1 T)|].
    next AC w2 L2. eapply run_next; [exact (exec_shiftv "srlv" 6 _ _ _ _ _ _ _ _ _ _ _ ltac:(names) L2 reg_r1 A reg_r1)|]. cbn [shiftv].
    next AC w3 L3. eapply run_next; [exact (exec_shiftv "sllv" 4 _ _ _ _ _ _ _ _ _ _ _ ltac:(names) L3 D A T)|]. cbn [shiftv].
    next AC w4 L4. ended AC. eexists. split; [exact (exec_alu "or" 0x25 _ _ _ _ _ _ _ _ _ _ _ ltac:(names) L4 D D reg_r1)|]. cbn [alu].
    eapply sets_at_first, sets_at_first, sets_at_again, sets_at_set; [exact D0|].
    rewrite set_same by exact D0. rewrite (set_other _ d) by lia. rewrite !set_same, !(set_other _ 1) by lia. rewrite Z0, neg_mod. apply left_parts, RA.
  - next AC w1 L1. eapply run_next; [exact (exec_negu _ _ _ _ _ _ _ _ _ L1 reg_r1 T)|].
    next AC w2 L2. eapply run_next; [exact (exec_shiftv "sllv" 4 _ _ _ _ _ _ _ _ _ _ _ ltac:(names) L2 reg_r1 A reg_r1)|]. cbn [shiftv].
    next AC w3 L3. eapply run_next; [exact (exec_shiftv "srlv" 6 _ _ _ _ _ _ _ _ _ _ _ ltac:(names) L3 D A T)|]. cbn [shiftv].
    next AC w4 L4. ended AC. eexists. split; [exact (exec_alu "or" 0x25 _ _ _ _ _ _ _ _ _ _ _ ltac:(names) L4 D D reg_r1)|]. cbn [alu].
    eapply sets_at_first, sets_at_first, sets_at_again, sets_at_set; [exact D0|].
    rewrite set_same by exact D0. rewrite (set_other _ d) by lia. rewrite !set_same, !(set_other _ 1) by lia. rewrite Z0, neg_mod. apply right_parts, RA.
Qed.
Lemma rotate_run f arch pc left p q r d a v ws c : coded f arch pc (ln (rot_name left) [p; q; r]) ws -> register Gpr p = Some d -> register Gpr q = Some a ->
  operand c r = Some v -> sane c -> d <> 0 -> d <> 1 -> a <> 1 -> register Gpr r <> Some 1 ->
  exists c', run ws c = Some c' /\ sets_at c d (rotated left (reg c a) v) c'.
Proof.
  intros C D A V SC D0 D1 A1 R1. unfold operand in V. destruct (register Gpr r) as [t|] eqn:T.
  - injection V as <-. refine (rot_reg_run _ _ _ _ _ _ _ _ _ _ _ _ C D A T SC D0 D1 A1 _). congruence.
  - exact (rot_imm_run _ _ _ _ _ _ _ _ _ _ _ _ C D A V SC D0 D1 A1).
Qed.
