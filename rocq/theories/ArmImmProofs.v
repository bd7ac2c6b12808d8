(** Lemmas on ARM data-processing immediates. *)

Require Import ZArith Lia Bool List String.
Require Import ZifyBool.
Require Import Verif.Ints Verif.IntsLemmas Verif.Res Verif.ArmModel Verif.ArmSpec.
Import ListNotations.
Local Open Scope Z_scope.
Ltac Zify.zify_post_hook ::= Z.div_mod_to_equations.

(** Left rotation on 32 bits, arithmetically. *)
Definition rotl_arith (num i : Z) : Z := (num mod 2 ^ (32 - i)) * 2 ^ i + num / 2 ^ (32 - i).

Definition even_shift (i : Z) : Prop := exists r, i = 2 * r /\ 0 <= r < 16.

Ltac sixteen r := assert (r = 0 \/ r = 1 \/ r = 2 \/ r = 3 \/ r = 4 \/ r = 5 \/ r = 6 \/ r = 7 \/
  r = 8 \/ r = 9 \/ r = 10 \/ r = 11 \/ r = 12 \/ r = 13 \/ r = 14 \/ r = 15) as HH by lia;
  repeat (destruct HH as [HH|HH]); subst r.

Lemma rotl_code_arith num i :
  0 <= num < 4294967296 -> even_shift i -> rotl_code num i = rotl_arith num i.
Proof.
  intros Hn (r & -> & Hr). unfold rotl_code, shl32, u32.
  destruct (Z.eq_dec r 0) as [->|Hr0].
  - change (2 * 0) with 0. change (Z.land (- 0) 31) with 0. unfold rotl_arith.
    rewrite Z.shiftl_0_r, Z.shiftr_0_r, Z.mod_small, Z.lor_diag by lia.
    change (2 ^ (32 - 0)) with 4294967296. change (2 ^ 0) with 1.
    rewrite Z.mod_small, Z.div_small by lia. lia.
  - replace (Z.land (- (2 * r)) 31) with (32 - 2 * r).
    2:{ rewrite land_31. rewrite <- (Z_mod_plus_full _ 1 32). rewrite Z.mod_small by lia. lia. }
    rewrite shiftl_mul, shiftr_div by lia.
    replace 4294967296 with (2 ^ (32 - 2 * r) * 2 ^ (2 * r)).
    2:{ rewrite <- Z.pow_add_r by lia. replace (32 - 2 * r + 2 * r) with 32 by lia. reflexivity. }
    rewrite Zmult_mod_distr_r.
    rewrite lor_mul_pow2_small.
    + reflexivity.
    + lia.
    + split; [apply Z.div_pos; [lia| apply Z.pow_pos_nonneg; lia]|].
      apply Z.div_lt_upper_bound; [apply Z.pow_pos_nonneg; lia|].
      rewrite <- Z.pow_add_r by lia. replace (32 - 2 * r + 2 * r) with 32 by lia. lia.
Qed.

Lemma pow_split i : even_shift i ->
  2 ^ i * 2 ^ (32 - i) = 4294967296 /\ 0 < 2 ^ i /\ 0 < 2 ^ (32 - i).
Proof.
  intros (r & -> & Hr). rewrite <- Z.pow_add_r by lia.
  replace (2 * r + (32 - 2 * r)) with 32 by lia.
  repeat split; apply Z.pow_pos_nonneg; lia.
Qed.

Lemma ror_rotl num i :
  0 <= num < 4294967296 -> even_shift i -> ror32 (rotl_arith num i) i = num.
Proof.
  intros Hn Hi. unfold ror32, rotl_arith.
  destruct (pow_split i Hi) as (Hp & Hk & Hm).
  set (k := 2 ^ i) in *. set (m := 2 ^ (32 - i)) in *.
  assert (Hq : 0 <= num / m < k).
  { split; [apply Z.div_pos; lia|]. apply Z.div_lt_upper_bound; lia. }
  rewrite Z.div_add_l, (Z.div_small (num / m) k) by lia.
  rewrite Z.add_comm with (n := num mod m * k), Z_mod_plus_full, (Z.mod_small (num / m)) by lia.
  pose proof (Z.div_mod num m ltac:(lia)). nia.
Qed.

Lemma rotl_ror b i :
  0 <= b < 4294967296 -> even_shift i -> rotl_arith (ror32 b i) i = b.
Proof.
  intros Hn Hi. unfold ror32, rotl_arith.
  destruct (pow_split i Hi) as (Hp & Hk & Hm).
  set (k := 2 ^ i) in *. set (m := 2 ^ (32 - i)) in *.
  assert (Hq : 0 <= b / k < m).
  { split; [apply Z.div_pos; lia|]. apply Z.div_lt_upper_bound; lia. }
  rewrite Z_mod_plus_full, (Z.mod_small (b / k)) by lia.
  rewrite Z.div_add, (Z.div_small (b / k) m) by lia.
  pose proof (Z.div_mod b k ltac:(lia)). nia.
Qed.

Lemma rotl_range num i :
  0 <= num < 4294967296 -> even_shift i -> 0 <= rotl_arith num i < 4294967296.
Proof.
  intros Hn Hi. unfold rotl_arith.
  destruct (pow_split i Hi) as (Hp & Hk & Hm).
  set (k := 2 ^ i) in *. set (m := 2 ^ (32 - i)) in *.
  assert (Hq : 0 <= num / m < k).
  { split; [apply Z.div_pos; lia|]. apply Z.div_lt_upper_bound; lia. }
  pose proof (Z.mod_pos_bound num m Hm). nia.
Qed.

(** [rotl_arith] bit-wise. *)
Lemma rotl_testbit num i j :
  0 <= num < 4294967296 -> 0 <= i < 32 -> 0 <= j < 32 ->
  Z.testbit (rotl_arith num i) j = Z.testbit num ((j - i) mod 32).
Proof.
  intros Hn Hi Hj. unfold rotl_arith.
  assert (Hs : 0 <= num / 2 ^ (32 - i) < 2 ^ i).
  { split; [apply Z.div_pos; [lia| apply Z.pow_pos_nonneg; lia]|].
    apply Z.div_lt_upper_bound; [apply Z.pow_pos_nonneg; lia|].
    rewrite <- Z.pow_add_r by lia. replace (32 - i + i) with 32 by lia. lia. }
  rewrite <- lor_mul_pow2_small by (assumption || lia).
  rewrite Z.lor_spec.
  destruct (Z.ltb_spec j i).
  - rewrite Z.mul_pow2_bits_low by lia. cbn [orb].
    rewrite Z.div_pow2_bits by lia. f_equal.
    replace (j - i) with (j + (32 - i) + (-1) * 32) by lia.
    rewrite Z_mod_plus_full. rewrite Z.mod_small by lia. lia.
  - rewrite Z.mul_pow2_bits by lia. rewrite Z.mod_pow2_bits_low by lia.
    rewrite (testbit_small _ i j) by lia. rewrite orb_false_r.
    rewrite Z.mod_small by lia. reflexivity.
Qed.

Lemma land_zero_iff a b : Z.land a b = 0 <-> forall j, 0 <= j -> Z.testbit a j && Z.testbit b j = false.
Proof.
  split.
  - intros H j _. rewrite <- Z.land_spec, H. apply Z.bits_0.
  - intros H. apply Z.bits_inj'. intros n Hn. rewrite Z.land_spec, Z.bits_0. apply H. lia.
Qed.

Lemma lt_256_iff x : 0 <= x < 4294967296 ->
  (x < 256 <-> forall j, 8 <= j < 32 -> Z.testbit x j = false).
Proof.
  intros Hx. split.
  - intros H j Hj. apply (testbit_small x 8 j); lia.
  - intros H. destruct (Z.ltb_spec x 256); [assumption|exfalso].
    pose proof (Z.bit_log2 x ltac:(lia)) as Hb.
    rewrite H in Hb; [discriminate|].
    split.
    + apply Z.log2_le_pow2; lia.
    + apply Z.log2_lt_pow2; lia.
Qed.

(** The mask of step [i] selects the bits whose rotated position is 8..31. *)
Lemma andval_testbit i j :
  even_shift i -> 0 <= j ->
  Z.testbit (andval i) j = (j <? 32) && (8 <=? (j + i) mod 32).
Proof.
  intros (r & -> & Hr) Hj.
  destruct (Z.ltb_spec j 32).
  - assert (Hc : forallb (fun r => forallb (fun j => Bool.eqb (Z.testbit (andval (2 * Z.of_nat r)) (Z.of_nat j))
        (8 <=? (Z.of_nat j + 2 * Z.of_nat r) mod 32)) (seq 0 32)) (seq 0 16) = true)
      by (vm_compute; reflexivity).
    rewrite forallb_forall in Hc. specialize (Hc (Z.to_nat r)).
    rewrite forallb_forall in Hc. specialize (Hc ltac:(apply in_seq; lia) (Z.to_nat j) ltac:(apply in_seq; lia)).
    rewrite !Z2Nat.id in Hc by lia. apply eqb_prop in Hc. rewrite Hc. reflexivity.
  - cbn [andb]. apply (testbit_small _ 32 j); [|lia|lia].
    sixteen r; vm_compute; split; congruence.
Qed.

Lemma step_test num i :
  0 <= num < 4294967296 -> even_shift i ->
  ((Z.land num (andval i) =? 0) = true <-> rotl_arith num i < 256).
Proof.
  intros Hn Hi. rewrite Z.eqb_eq, land_zero_iff, lt_256_iff by (apply rotl_range; assumption).
  assert (Hi' : 0 <= i < 32 /\ i mod 2 = 0) by (destruct Hi as (r & -> & ?); lia).
  split.
  - intros H j Hj. rewrite rotl_testbit by lia.
    assert (Hm : 0 <= (j - i) mod 32 < 32) by (apply Z.mod_pos_bound; lia).
    specialize (H ((j - i) mod 32) ltac:(lia)).
    rewrite andval_testbit in H by (assumption || lia).
    rewrite Zplus_mod_idemp_l in H. replace (j - i + i) with j in H by lia.
    rewrite (Z.mod_small j 32) in H by lia.
    replace (_ <? 32) with true in H by lia. replace (8 <=? j) with true in H by lia.
    rewrite andb_true_r in H. exact H.
  - intros H j Hj. rewrite andval_testbit by (assumption || lia).
    destruct (Z.ltb_spec j 32); [|cbn [andb]; apply andb_false_r].
    cbn [andb]. destruct (Z.leb_spec 8 ((j + i) mod 32)); [|apply andb_false_r].
    rewrite andb_true_r.
    assert (Hm : 0 <= (j + i) mod 32 < 32) by (apply Z.mod_pos_bound; lia).
    specialize (H ((j + i) mod 32) ltac:(lia)). rewrite rotl_testbit in H by lia.
    rewrite Zminus_mod_idemp_l in H. replace (j + i - i) with j in H by lia.
    rewrite (Z.mod_small j 32) in H by lia. exact H.
Qed.

Lemma shifted_loop_some num : 0 <= num < 4294967296 -> forall n r t s,
  0 <= r -> r + Z.of_nat n <= 16 ->
  shifted_loop num (2 * r) n = Some (t, s) ->
  exists r', s = 2 * r' /\ r <= r' < r + Z.of_nat n /\ 0 <= t < 256 /\ t = rotl_arith num s /\
    (forall r'', r <= r'' < r' -> ~ rotl_arith num (2 * r'') < 256).
Proof.
  intros Hn. induction n as [|n IH]; intros r t s Hr Hb H; [discriminate|].
  cbn [shifted_loop] in H.
  assert (He : even_shift (2 * r)) by (exists r; lia).
  destruct (Z.land num (andval (2 * r)) =? 0) eqn:E.
  - assert (t = rotl_code num (2 * r)) as -> by congruence. assert (s = 2 * r) as -> by congruence.
    clear H. exists r. rewrite rotl_code_arith by assumption.
    pose proof (proj1 (step_test _ _ Hn He) E). pose proof (rotl_range _ _ Hn He).
    split; [reflexivity|]. split; [lia|]. split; [lia|]. split; [reflexivity|]. intros r2 Hr2. exfalso. clear - Hr2. lia.
  - replace (2 * r + 2) with (2 * (r + 1)) in H by lia.
    apply IH in H; [|lia|lia]. destruct H as (r' & -> & ? & ? & ? & Hmin).
    exists r'. repeat split; try lia.
    intros r'' Hr''. destruct (Z.eq_dec r'' r) as [->|].
    + intros Hlt. apply (proj2 (step_test _ _ Hn He)) in Hlt. congruence.
    + apply Hmin. lia.
Qed.

Lemma shifted_loop_none num : 0 <= num < 4294967296 -> forall n r,
  0 <= r -> r + Z.of_nat n <= 16 ->
  shifted_loop num (2 * r) n = None ->
  forall r', r <= r' < r + Z.of_nat n -> ~ rotl_arith num (2 * r') < 256.
Proof.
  intros Hn. induction n as [|n IH]; intros r Hr Hb H r' Hr'; [lia|].
  cbn [shifted_loop] in H.
  assert (He : even_shift (2 * r)) by (exists r; lia).
  destruct (Z.land num (andval (2 * r)) =? 0) eqn:E; [discriminate|].
  replace (2 * r + 2) with (2 * (r + 1)) in H by lia.
  destruct (Z.eq_dec r' r) as [->|].
  - intros Hlt. apply (proj2 (step_test _ _ Hn He)) in Hlt. congruence.
  - apply (IH (r + 1)); try assumption; lia.
Qed.

Lemma encodable_rotl v : 0 <= v < 4294967296 ->
  (arm_encodable v <-> exists r, 0 <= r < 16 /\ rotl_arith v (2 * r) < 256).
Proof.
  intros Hv. split.
  - intros (b & r & Hb & Hr & ->). exists r. split; [assumption|].
    rewrite rotl_ror; [lia|lia| exists r; lia].
  - intros (r & Hr & Hlt). exists (rotl_arith v (2 * r)), r.
    assert (He : even_shift (2 * r)) by (exists r; lia).
    pose proof (rotl_range v (2 * r) Hv He). rewrite ror_rotl by assumption. lia.
Qed.

(** What [getShiftedImmediate] computes. *)
Lemma shifted_immediate_spec num :
  match getShiftedImmediate num with
  | Some (b, s) =>
      exists r, s = 2 * r /\ 0 <= r < 16 /\ 0 <= b < 256 /\ u32 num = ror32 b s /\
        (forall b' r', 0 <= b' < 256 -> 0 <= r' < 16 -> u32 num = ror32 b' (2 * r') -> r <= r')
  | None => ~ arm_encodable (u32 num)
  end.
Proof.
  pose proof (u32_range num) as Hv. unfold getShiftedImmediate.
  change 0 with (2 * 0) at 1.
  destruct (shifted_loop (u32 num) (2 * 0) 16) as [[b s]|] eqn:E.
  - apply (shifted_loop_some _ Hv) in E; [|lia|lia].
    destruct E as (r & -> & Hr & Hb & -> & Hmin). exists r.
    assert (He : even_shift (2 * r)) by (exists r; lia).
    repeat split; try lia.
    + symmetry. apply ror_rotl; assumption.
    + intros b' r' Hb' Hr' Hv'. destruct (Z.leb_spec r r'); [assumption|exfalso].
      apply (Hmin r'); [lia|]. rewrite Hv', rotl_ror; [lia|lia|exists r'; lia].
  - pose proof (shifted_loop_none _ Hv 16 0 ltac:(lia) ltac:(lia) E) as Hno.
    rewrite (encodable_rotl _ Hv). intros (r & Hr & Hlt). apply (Hno r); [lia|exact Hlt].
Qed.

Lemma arm_expand_imm_fields b r :
  0 <= b < 256 -> 0 <= r < 16 -> arm_expand_imm (r * 256 + b) = ror32 b (2 * r).
Proof.
  intros Hb Hr. unfold arm_expand_imm. f_equal; lia.
Qed.
