Require Import ZArith List Lia Bool ZifyBool.
From Verif Require Import Ints IntsLemmas Res CrcModel CrcSpec.
Import ListNotations.
Local Open Scope Z_scope.

(** ** The shift register without input is linear *)

Definition shift1 (g c : Z) : Z := lfsr g c false.
Fixpoint shifts (n : nat) (g c : Z) : Z := match n with O => c | S n => shifts n g (shift1 g c) end.

Lemma div2_lxor a b : Z.lxor a b / 2 = Z.lxor (a / 2) (b / 2).
Proof. rewrite <- !Z.div2_div, !Z.div2_spec. apply Z.shiftr_lxor. Qed.
Lemma odd_lxor a b : Z.odd (Z.lxor a b) = xorb (Z.odd a) (Z.odd b).
Proof. rewrite <- !Z.bit0_odd. apply Z.lxor_spec. Qed.

Lemma shift1_lxor g a b : shift1 g (Z.lxor a b) = Z.lxor (shift1 g a) (shift1 g b).
Proof.
  unfold shift1, lfsr. rewrite odd_lxor, div2_lxor, !xorb_false_r.
  destruct (Z.odd a), (Z.odd b); cbn [xorb].
  - rewrite (Z.lxor_comm (b / 2)), Z.lxor_assoc, <- (Z.lxor_assoc g), Z.lxor_nilpotent, Z.lxor_0_l. reflexivity.
  - rewrite !Z.lxor_assoc. f_equal. apply Z.lxor_comm.
  - apply Z.lxor_assoc.
  - reflexivity.
Qed.
Lemma shifts_lxor g n : forall a b, shifts n g (Z.lxor a b) = Z.lxor (shifts n g a) (shifts n g b).
Proof. induction n; intros; cbn [shifts]; [reflexivity|]. rewrite shift1_lxor. apply IHn. Qed.

Lemma shift1_even g a : shift1 g (2 * a) = a.
Proof. unfold shift1, lfsr. rewrite Z.odd_mul. change (Z.odd 2) with false. cbn [andb xorb]. rewrite Z.mul_comm. apply Z.div_mul. lia. Qed.
Lemma shifts_mul g n : forall a, shifts n g (2 ^ Z.of_nat n * a) = a.
Proof.
  induction n; intros a; cbn [shifts].
  - change (2 ^ Z.of_nat 0) with 1. lia.
  - rewrite Nat2Z.inj_succ, Z.pow_succ_r, <- Z.mul_assoc, shift1_even by lia. apply IHn.
Qed.

(** ** An input bit is the same as a bit in the register *)

Definition bit_z (b : bool) : Z := if b then 1 else 0.
Lemma lfsr_bit g c b : lfsr g c b = shift1 g (Z.lxor c (bit_z b)).
Proof.
  unfold shift1, lfsr. rewrite odd_lxor, div2_lxor, xorb_false_r.
  destruct b; cbn [bit_z]; change (1 / 2) with 0; change (0 / 2) with 0; rewrite Z.lxor_0_r;
    reflexivity.
Qed.

Lemma split_low x : x = Z.lxor (bit_z (Z.odd x)) (2 * (x / 2)).
Proof.
  apply Z.bits_inj'. intros n Hn. rewrite Z.lxor_spec.
  destruct (Z.eq_dec n 0) as [->|H0].
  - rewrite Z.testbit_even_0, Z.bit0_odd. destruct (Z.odd x); reflexivity.
  - replace n with (Z.succ (n - 1)) by lia. rewrite Z.testbit_even_succ by lia.
    rewrite <- Z.div2_div, Z.div2_spec, Z.shiftr_spec by lia. 
    replace (n - 1 + 1) with (Z.succ (n - 1)) by lia.
    assert (H : Z.testbit (bit_z (Z.odd x)) (Z.succ (n - 1)) = false).
    { destruct (Z.odd x); cbn [bit_z]; [|apply Z.testbit_0_l].
      apply (testbit_small 1 1); lia. }
    rewrite H, xorb_false_l. reflexivity.
Qed.

(** n bits of b, least significant first, enter the register *)
Fixpoint low_bits (n : nat) (b : Z) : list bool :=
  match n with O => [] | S n => Z.odd b :: low_bits n (b / 2) end.
Lemma feed_bits g n : forall c b, 0 <= b < 2 ^ Z.of_nat n ->
  fold_left (lfsr g) (low_bits n b) c = shifts n g (Z.lxor c b).
Proof.
  induction n; intros c b Hb; cbn [low_bits fold_left shifts].
  - change (2 ^ Z.of_nat 0) with 1 in Hb. replace b with 0 by lia. rewrite Z.lxor_0_r. reflexivity.
  - rewrite Nat2Z.inj_succ, Z.pow_succ_r in Hb by lia.
    rewrite IHn by (split; [apply Z.div_pos; lia|apply Z.div_lt_upper_bound; lia]).
    f_equal. rewrite lfsr_bit.
    transitivity (shift1 g (Z.lxor (Z.lxor c (bit_z (Z.odd b))) (2 * (b / 2)))).
    + rewrite (shift1_lxor g _ (2 * (b / 2))), shift1_even. reflexivity.
    + rewrite Z.lxor_assoc, <- split_low. reflexivity.
Qed.
Lemma byte_bits_low b : byte_bits b = low_bits 8 b.
Proof.
  unfold byte_bits. cbn [low_bits].
  rewrite <- !Z.bit0_odd, <- !Z.div2_div, !Z.div2_spec, !Z.shiftr_spec by lia. reflexivity.
Qed.

(** ** One byte *)

Lemma shifts8_split g c : shifts 8 g c = Z.lxor (c / 256) (shifts 8 g (c mod 256)).
Proof.
  assert (H : c = Z.lxor (2 ^ Z.of_nat 8 * (c / 256)) (c mod 256)).
  { rewrite Z.mul_comm. change (2 ^ Z.of_nat 8) with (2 ^ 8). change 256 with (2 ^ 8).
    rewrite <- Z.add_nocarry_lxor.
    - rewrite Z.mul_comm. apply Z.div_mod. lia.
    - apply land_mul_pow2_small; [lia|]. apply Z.mod_pos_bound. lia. }
  rewrite H at 1. rewrite shifts_lxor, shifts_mul. reflexivity.
Qed.

Definition table_ok (t : list Z) (g : Z) : bool :=
  forallb (fun i => entry t (Z.of_nat i) =? shifts 8 g (Z.of_nat i)) (seq 0 256).
Lemma table_entry t g : table_ok t g = true -> forall i, 0 <= i < 256 -> entry t i = shifts 8 g i.
Proof.
  unfold table_ok. rewrite forallb_forall. intros H i Hi.
  specialize (H (Z.to_nat i)). rewrite Z2Nat.id in H by lia. apply Z.eqb_eq, H, in_seq. lia.
Qed.
Lemma table16 : table_ok Crc16Table poly16 = true. Proof. vm_compute. reflexivity. Qed.
Lemma table32 : table_ok Crc32Table poly32 = true. Proof. vm_compute. reflexivity. Qed.

Lemma lxor_mod256 c b : is_byte b -> Z.lxor c b mod 256 = Z.lxor (c mod 256) b.
Proof.
  intros Hb. change 256 with (2 ^ 8). rewrite <- !Z.land_ones by lia.
  apply Z.bits_inj'. intros n Hn. rewrite !Z.land_spec, !Z.lxor_spec, !Z.land_spec.
  destruct (Z.ltb_spec n 8).
  - rewrite Z.ones_spec_low by lia. rewrite !andb_true_r. reflexivity.
  - rewrite Z.ones_spec_high by lia. unfold is_byte in Hb.
    rewrite (testbit_small b 8) by lia. rewrite !andb_false_r. reflexivity.
Qed.
Lemma lxor_div256 c b : is_byte b -> Z.lxor c b / 256 = c / 256.
Proof.
  intros Hb. change 256 with (2 ^ 8). rewrite <- !Z.shiftr_div_pow2 by lia.
  apply Z.bits_inj'. intros n Hn. rewrite !Z.shiftr_spec, Z.lxor_spec by lia.
  unfold is_byte in Hb. rewrite (testbit_small b 8) by lia. apply xorb_false_r.
Qed.

Lemma feed_byte g c b : is_byte b ->
  fold_left (lfsr g) (byte_bits b) c = shifts 8 g (Z.lxor c b).
Proof. intros Hb. rewrite byte_bits_low. apply feed_bits. exact Hb. Qed.

Lemma lxor_byte_range c b : is_byte b -> 0 <= Z.lxor c b mod 256 < 256.
Proof. intros _. apply Z.mod_pos_bound. lia. Qed.

Lemma step16 c b : is_byte b -> crc16_step c b = shifts 8 poly16 (Z.lxor c b).
Proof.
  intros Hb. unfold crc16_step. rewrite land_255, Z.shiftr_div_pow2 by lia. change (2 ^ 8) with 256.
  rewrite (table_entry _ _ table16) by (apply lxor_byte_range; exact Hb).
  rewrite (shifts8_split _ (Z.lxor c b)), lxor_div256 by exact Hb. reflexivity.
Qed.
Lemma step32 c b : is_byte b -> crc32_step c b = shifts 8 poly32 (Z.lxor c b).
Proof.
  intros Hb. unfold crc32_step. rewrite land_255, Z.shiftr_div_pow2 by lia. change (2 ^ 8) with 256.
  rewrite <- lxor_mod256 by exact Hb.
  rewrite (table_entry _ _ table32) by (apply lxor_byte_range; exact Hb).
  rewrite (shifts8_split _ (Z.lxor c b)), lxor_div256 by exact Hb. reflexivity.
Qed.

(** ** Whole messages *)

Lemma serial_fold g step : (forall c b, is_byte b -> step c b = shifts 8 g (Z.lxor c b)) ->
  forall l c, Forall is_byte l -> fold_left step l c = serial_crc g c l.
Proof.
  intros Hs l. unfold serial_crc. induction l as [|b l IH]; intros c Hl; [reflexivity|].
  inversion Hl; subst. unfold message_bits in *. cbn [fold_left flat_map]. rewrite fold_left_app, feed_byte by assumption.
  rewrite Hs by assumption. apply IH. assumption.
Qed.

Lemma crc16_serial l : Forall is_byte l -> get_crc16 l = serial_crc poly16 (2 ^ 16 - 1) l.
Proof. apply (serial_fold _ _ step16). Qed.
Lemma crc32_serial l : Forall is_byte l ->
  get_crc32 l = Z.lxor (serial_crc poly32 (2 ^ 32 - 1) l) (2 ^ 32 - 1).
Proof. intros H. unfold get_crc32. rewrite (serial_fold _ _ step32) by exact H. reflexivity. Qed.

(** ** Changed bytes *)

Section Width.
  Variables (w g : Z).
  Hypothesis Hw : 8 <= w.
  Hypothesis Hg : 2 ^ (w - 1) <= g < 2 ^ w.

  Lemma half : 2 ^ w = 2 * 2 ^ (w - 1).
  Proof. rewrite <- Z.pow_succ_r by lia. f_equal. lia. Qed.

  Lemma lxor_range a b : 0 <= a < 2 ^ w -> 0 <= b < 2 ^ w -> 0 <= Z.lxor a b < 2 ^ w.
  Proof.
    intros Ha Hb. assert (0 <= Z.lxor a b) by (apply Z.lxor_nonneg; lia). split; [assumption|].
    assert (Hp : 0 < 2 ^ w) by (apply Z.pow_pos_nonneg; lia).
    destruct (Z.eq_dec (Z.lxor a b) 0) as [->|Hn]; [assumption|].
    apply Z.log2_lt_pow2; [lia|].
    eapply Z.le_lt_trans; [apply Z.log2_lxor; lia|].
    apply Z.max_lub_lt.
    - destruct (Z.eq_dec a 0) as [->|]; [cbn; lia|]. apply Z.log2_lt_pow2; lia.
    - destruct (Z.eq_dec b 0) as [->|]; [cbn; lia|]. apply Z.log2_lt_pow2; lia.
  Qed.
  Lemma shift1_range c : 0 <= c < 2 ^ w -> 0 <= shift1 g c < 2 ^ w.
  Proof.
    intros Hc. unfold shift1, lfsr. rewrite xorb_false_r.
    assert (0 <= c / 2 < 2 ^ w) by (pose proof half; split; [apply Z.div_pos; lia|apply Z.div_lt_upper_bound; lia]).
    destruct (Z.odd c); [apply lxor_range; [assumption|]|assumption].
    split; [|lia]. pose proof (Z.pow_nonneg 2 (w - 1)). lia.
  Qed.
  Lemma top_bit_small c : 0 <= c < 2 ^ w -> Z.testbit (c / 2) (w - 1) = false.
  Proof.
    intros Hc. apply (testbit_small _ (w - 1)); try lia.
    pose proof half. split; [apply Z.div_pos; lia|apply Z.div_lt_upper_bound; lia].
  Qed.
  Lemma top_bit_g : Z.testbit g (w - 1) = true.
  Proof.
    apply Z.testbit_true; [lia|]. pose proof half.
    replace (g / 2 ^ (w - 1)) with 1; [reflexivity|].
    assert (0 < 2 ^ (w - 1)) by (apply Z.pow_pos_nonneg; lia).
    apply Z.div_unique with (g - 2 ^ (w - 1)); lia.
  Qed.
  Lemma shift1_top c : 0 <= c < 2 ^ w -> Z.testbit (shift1 g c) (w - 1) = Z.odd c.
  Proof.
    intros Hc. unfold shift1, lfsr. rewrite xorb_false_r. destruct (Z.odd c).
    - rewrite Z.lxor_spec, top_bit_small, top_bit_g by assumption. reflexivity.
    - apply top_bit_small. assumption.
  Qed.
  Lemma shift1_inj c d : 0 <= c < 2 ^ w -> 0 <= d < 2 ^ w -> shift1 g c = shift1 g d -> c = d.
  Proof.
    intros Hc Hd H. pose proof (shift1_top c Hc) as Tc. pose proof (shift1_top d Hd) as Td.
    rewrite H in Tc. rewrite (split_low c), (split_low d). rewrite <- Tc, <- Td.
    f_equal. unfold shift1, lfsr in H. rewrite !xorb_false_r, <- Tc, <- Td in H.
    destruct (Z.testbit (shift1 g d) (w - 1)); [|congruence].
    assert (E : Z.lxor (Z.lxor (c / 2) g) g = Z.lxor (Z.lxor (d / 2) g) g) by (rewrite H; reflexivity).
    rewrite !Z.lxor_assoc, Z.lxor_nilpotent, !Z.lxor_0_r in E. congruence.
  Qed.
  Lemma shifts_range n : forall c, 0 <= c < 2 ^ w -> 0 <= shifts n g c < 2 ^ w.
  Proof. induction n; intros c Hc; cbn [shifts]; [assumption|]. apply IHn, shift1_range, Hc. Qed.
  Lemma shifts_inj n : forall c d, 0 <= c < 2 ^ w -> 0 <= d < 2 ^ w -> shifts n g c = shifts n g d -> c = d.
  Proof.
    induction n; intros c d Hc Hd H; cbn [shifts] in H; [assumption|].
    apply shift1_inj; try assumption. apply IHn; try apply shift1_range; assumption.
  Qed.

  Lemma byte_fits b : is_byte b -> 0 <= b < 2 ^ w.
  Proof.
    unfold is_byte. intros Hb. assert (2 ^ 8 <= 2 ^ w) by (apply Z.pow_le_mono_r; lia).
    change (2 ^ 8) with 256 in *. lia.
  Qed.
  Lemma lxor_cancel a b c : Z.lxor a b = Z.lxor a c -> b = c.
  Proof.
    intros H. assert (E : Z.lxor a (Z.lxor a b) = Z.lxor a (Z.lxor a c)) by (rewrite H; reflexivity).
    rewrite <- !Z.lxor_assoc, Z.lxor_nilpotent, !Z.lxor_0_l in E. exact E.
  Qed.

  Lemma serial_cons c b l : is_byte b ->
    serial_crc g c (b :: l) = serial_crc g (shifts 8 g (Z.lxor c b)) l.
  Proof.
    intros Hb. unfold serial_crc, message_bits. cbn [flat_map]. rewrite fold_left_app, feed_byte by assumption. reflexivity.
  Qed.
  Lemma serial_range l : forall c, Forall is_byte l -> 0 <= c < 2 ^ w -> 0 <= serial_crc g c l < 2 ^ w.
  Proof.
    induction l as [|b l IH]; intros c Hl Hc; [exact Hc|]. inversion Hl; subst.
    rewrite serial_cons by assumption. apply IH; [assumption|].
    apply shifts_range, lxor_range; [assumption|apply byte_fits; assumption].
  Qed.
  Lemma serial_inj l : forall c d, Forall is_byte l -> 0 <= c < 2 ^ w -> 0 <= d < 2 ^ w ->
    serial_crc g c l = serial_crc g d l -> c = d.
  Proof.
    induction l as [|b l IH]; intros c d Hl Hc Hd H; [exact H|]. inversion Hl; subst.
    rewrite !serial_cons in H by assumption.
    pose proof (byte_fits _ H2) as Hb.
    apply IH in H; try assumption; try (apply shifts_range, lxor_range; assumption).
    apply shifts_inj in H; try (apply lxor_range; assumption).
    rewrite (Z.lxor_comm c), (Z.lxor_comm d) in H. apply lxor_cancel in H. exact H.
  Qed.
  Lemma serial_app c l m : serial_crc g c (l ++ m) = serial_crc g (serial_crc g c l) m.
  Proof. unfold serial_crc, message_bits. rewrite flat_map_app, fold_left_app. reflexivity. Qed.

  (** the little-endian number a short window spells *)
  Fixpoint le_number (l : list Z) : Z := match l with [] => 0 | b :: r => b + 256 * le_number r end.
  Lemma le_range l : Forall is_byte l -> 0 <= le_number l < 256 ^ Z.of_nat (length l).
  Proof.
    induction 1 as [|b l Hb Hl IH]; [cbn; lia|]. cbn [le_number length].
    rewrite Nat2Z.inj_succ, Z.pow_succ_r by lia. unfold is_byte in Hb. lia.
  Qed.
  Lemma le_inj : forall l m, length l = length m -> Forall is_byte l -> Forall is_byte m ->
    le_number l = le_number m -> l = m.
  Proof.
    induction l as [|a l IH]; intros [|b m] Hlen Hl Hm H; cbn in Hlen; try discriminate; [reflexivity|].
    inversion Hl; inversion Hm; subst. cbn [le_number] in H. unfold is_byte in *.
    assert (a = b) by lia. subst. f_equal. apply IH; try assumption; lia.
  Qed.
  Lemma shifts_add n m : forall c, shifts (n + m) g c = shifts m g (shifts n g c).
  Proof. induction n; intros c; cbn [shifts plus]; [reflexivity|]. apply IHn. Qed.
  Lemma lxor_mul a b : Z.lxor (256 * a) (256 * b) = 256 * Z.lxor a b.
  Proof.
    rewrite !(Z.mul_comm 256). change 256 with (2 ^ 8). rewrite <- !Z.shiftl_mul_pow2 by lia.
    symmetry. apply Z.shiftl_lxor.
  Qed.
  Lemma serial_window l : forall c, Forall is_byte l ->
    serial_crc g c l = shifts (8 * length l) g (Z.lxor c (le_number l)).
  Proof.
    induction l as [|b l IH]; intros c Hl.
    - cbn. rewrite Z.lxor_0_r. reflexivity.
    - inversion Hl; subst. rewrite serial_cons, IH by assumption. cbn [length le_number].
      replace (8 * S (length l))%nat with (8 + 8 * length l)%nat by lia.
      rewrite shifts_add. f_equal.
      assert (E : b + 256 * le_number l = Z.lxor b (256 * le_number l)).
      { rewrite Z.add_comm, (Z.lxor_comm b), (Z.mul_comm 256). change 256 with (2 ^ 8).
        apply Z.add_nocarry_lxor. apply land_mul_pow2_small; [lia|]. exact H1. }
      rewrite E, <- Z.lxor_assoc, (shifts_lxor g 8 (Z.lxor c b) (256 * _)). f_equal. symmetry. exact (shifts_mul g 8 (le_number l)).
  Qed.

  Lemma window_detected c p l m s :
    length l = length m -> 8 * Z.of_nat (length l) <= w ->
    Forall is_byte p -> Forall is_byte l -> Forall is_byte m -> Forall is_byte s ->
    0 <= c < 2 ^ w -> l <> m ->
    serial_crc g c (p ++ l ++ s) <> serial_crc g c (p ++ m ++ s).
  Proof.
    intros Hlen Hlw Hp Hl Hm Hs Hc Hne H. apply Hne. clear Hne.
    rewrite !serial_app in H.
    pose proof (serial_range p c Hp Hc) as Hr.
    remember (serial_crc g c p) as c1 eqn:Ec1. clear Ec1.
    apply serial_inj in H; try assumption; try (apply serial_range; assumption).
    rewrite !serial_window in H by assumption. rewrite <- Hlen in H.
    assert (Hfit : forall k, Forall is_byte k -> length k = length l -> 0 <= le_number k < 2 ^ w).
    { intros k Hk Hkl. pose proof (le_range k Hk) as Hk'. rewrite Hkl in Hk'.
      change 256 with (2 ^ 8) in Hk'. rewrite <- Z.pow_mul_r in Hk' by lia.
      assert (2 ^ (8 * Z.of_nat (length l)) <= 2 ^ w) by (apply Z.pow_le_mono_r; lia). lia. }
    assert (Hm' : 0 <= le_number m < 2 ^ w) by (apply Hfit; [assumption|symmetry; assumption]).
    assert (Hl' : 0 <= le_number l < 2 ^ w) by (apply Hfit; [assumption|reflexivity]).
    apply shifts_inj in H; [|apply lxor_range; assumption|apply lxor_range; assumption].
    apply lxor_cancel in H. apply le_inj; assumption.
  Qed.
End Width.

Lemma crc16_detects p l m s :
  Forall is_byte (p ++ l ++ s) -> Forall is_byte m -> length l = length m -> (length l <= 2)%nat -> l <> m ->
  get_crc16 (p ++ l ++ s) <> get_crc16 (p ++ m ++ s).
Proof.
  rewrite !Forall_app. intros (Hp & Hl & Hs) Hm Hlen Hn Hne.
  rewrite !crc16_serial by (rewrite !Forall_app; auto).
  apply (window_detected 16); try assumption; try lia; vm_compute; intuition discriminate.
Qed.
Lemma crc32_detects p l m s :
  Forall is_byte (p ++ l ++ s) -> Forall is_byte m -> length l = length m -> (length l <= 4)%nat -> l <> m ->
  get_crc32 (p ++ l ++ s) <> get_crc32 (p ++ m ++ s).
Proof.
  rewrite !Forall_app. intros (Hp & Hl & Hs) Hm Hlen Hn Hne.
  rewrite !crc32_serial by (rewrite !Forall_app; auto). intros H.
  rewrite !(Z.lxor_comm _ (2 ^ 32 - 1)) in H. apply lxor_cancel in H. revert H.
  apply (window_detected 32); try assumption; try lia; vm_compute; intuition discriminate.
Qed.

(** ** Checksum *)

Lemma checksum_sum l : forall acc, Forall is_byte l -> 0 <= acc ->
  checksum_from acc l = (if acc + fold_right Z.add 0 l <=? 2147483647 then ROk (acc + fold_right Z.add 0 l)
                         else if acc <=? 2147483647 then RUb else checksum_from acc l).
Proof.
  induction l as [|b l IH]; intros acc Hl Ha; cbn [checksum_from fold_right].
  - rewrite Z.add_0_r. destruct (acc <=? 2147483647) eqn:E; [|reflexivity].
    rewrite u32_small by lia. reflexivity.
  - inversion Hl; subst. unfold is_byte in *.
    assert (Hr : 0 <= fold_right Z.add 0 l).
    { clear - H2. induction H2 as [|a k Ha Hk IH]; cbn [fold_right]; [lia|]. unfold is_byte in Ha. lia. }
    destruct (acc + b >? 2147483647) eqn:E.
    + replace (acc + (b + fold_right Z.add 0 l) <=? 2147483647) with false by lia.
      destruct (acc <=? 2147483647); reflexivity.
    + rewrite IH by (try assumption; lia). rewrite <- Z.add_assoc.
      destruct (acc + (b + fold_right Z.add 0 l) <=? 2147483647); [reflexivity|].
      replace (acc + b <=? 2147483647) with true by lia.
      replace (acc <=? 2147483647) with true by lia. reflexivity.
Qed.
Lemma checksum_exact l : Forall is_byte l ->
  get_checksum l = if fold_right Z.add 0 l <=? 2147483647 then ROk (fold_right Z.add 0 l) else RUb.
Proof. intros H. unfold get_checksum. rewrite checksum_sum by (try assumption; lia). reflexivity. Qed.
