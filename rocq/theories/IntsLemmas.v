(** Lemmas on the conversions of [Ints.v] and on masks, shifts and bit fields. *)

Require Import ZArith Lia Bool List.
Require Import ZifyBool.
Require Import Verif.Ints.
Import ListNotations.
Local Open Scope Z_scope.
Ltac Zify.zify_post_hook ::= Z.div_mod_to_equations.

Lemma u8_range x : 0 <= u8 x < 256.
Proof. unfold u8. lia. Qed.
Lemma u16_range x : 0 <= u16 x < 65536.
Proof. unfold u16. lia. Qed.
Lemma u32_range x : 0 <= u32 x < 4294967296.
Proof. unfold u32. lia. Qed.
Lemma u64_range x : 0 <= u64 x < 18446744073709551616.
Proof. unfold u64. lia. Qed.
Lemma s8_range x : -128 <= s8 x < 128.
Proof. unfold s8. cbv zeta. destruct (_ <? _) eqn:?; lia. Qed.
Lemma s16_range x : -32768 <= s16 x < 32768.
Proof. unfold s16. cbv zeta. destruct (_ <? _) eqn:?; lia. Qed.
Lemma s32_range x : -2147483648 <= s32 x < 2147483648.
Proof. unfold s32. cbv zeta. destruct (_ <? _) eqn:?; lia. Qed.
Lemma s64_range x : is_int64 (s64 x).
Proof. unfold s64, is_int64, int64_min, int64_max. cbv zeta. destruct (_ <? _) eqn:?; lia. Qed.

Lemma u32_small x : 0 <= x < 4294967296 -> u32 x = x.
Proof. unfold u32. lia. Qed.
Lemma u16_small x : 0 <= x < 65536 -> u16 x = x.
Proof. unfold u16. lia. Qed.
Lemma u8_small x : 0 <= x < 256 -> u8 x = x.
Proof. unfold u8. lia. Qed.
Lemma s32_small x : -2147483648 <= x < 2147483648 -> s32 x = x.
Proof. unfold s32. cbv zeta. destruct (_ <? _) eqn:?; lia. Qed.
Lemma s16_small x : -32768 <= x < 32768 -> s16 x = x.
Proof. unfold s16. cbv zeta. destruct (_ <? _) eqn:?; lia. Qed.
Lemma s8_small x : -128 <= x < 128 -> s8 x = x.
Proof. unfold s8. cbv zeta. destruct (_ <? _) eqn:?; lia. Qed.
Lemma s64_small x : is_int64 x -> s64 x = x.
Proof. unfold s64, is_int64, int64_min, int64_max. cbv zeta. destruct (_ <? _) eqn:?; lia. Qed.

Lemma s32_mod x : (s32 x) mod 4294967296 = x mod 4294967296.
Proof. unfold s32. cbv zeta. destruct (_ <? _) eqn:?; lia. Qed.
Lemma s16_mod x : (s16 x) mod 65536 = x mod 65536.
Proof. unfold s16. cbv zeta. destruct (_ <? _) eqn:?; lia. Qed.
Lemma s64_mod x : (s64 x) mod 18446744073709551616 = x mod 18446744073709551616.
Proof. unfold s64. cbv zeta. destruct (_ <? _) eqn:?; lia. Qed.

Lemma u32_idem x : u32 (u32 x) = u32 x.
Proof. unfold u32. apply Z.mod_mod. lia. Qed.

Lemma u32_eq_mod a b k : a = b + k * 4294967296 -> u32 a = u32 b.
Proof. intros ->. unfold u32. apply Z_mod_plus_full. Qed.

Lemma u32_s32 x : u32 (s32 x) = u32 x.
Proof. apply s32_mod. Qed.

(** Masks with [2^n - 1] are remainders. *)
Lemma land_ones_mod a n : 0 <= n -> Z.land a (2 ^ n - 1) = a mod 2 ^ n.
Proof.
  intros Hn. replace (2 ^ n - 1) with (Z.ones n).
  - apply Z.land_ones; lia.
  - rewrite Z.ones_equiv. lia.
Qed.

Lemma land_1 a : Z.land a 1 = a mod 2.
Proof. exact (land_ones_mod a 1 ltac:(lia)). Qed.
Lemma land_3 a : Z.land a 3 = a mod 4.
Proof. exact (land_ones_mod a 2 ltac:(lia)). Qed.
Lemma land_7 a : Z.land a 7 = a mod 8.
Proof. exact (land_ones_mod a 3 ltac:(lia)). Qed.
Lemma land_15 a : Z.land a 15 = a mod 16.
Proof. exact (land_ones_mod a 4 ltac:(lia)). Qed.
Lemma land_31 a : Z.land a 31 = a mod 32.
Proof. exact (land_ones_mod a 5 ltac:(lia)). Qed.
Lemma land_63 a : Z.land a 63 = a mod 64.
Proof. exact (land_ones_mod a 6 ltac:(lia)). Qed.
Lemma land_255 a : Z.land a 255 = a mod 256.
Proof. exact (land_ones_mod a 8 ltac:(lia)). Qed.
Lemma land_2047 a : Z.land a 2047 = a mod 2048.
Proof. exact (land_ones_mod a 11 ltac:(lia)). Qed.
Lemma land_65535 a : Z.land a 65535 = a mod 65536.
Proof. exact (land_ones_mod a 16 ltac:(lia)). Qed.
Lemma land_ffffff a : Z.land a 16777215 = a mod 16777216.
Proof. exact (land_ones_mod a 24 ltac:(lia)). Qed.
Lemma land_3ffffff a : Z.land a 67108863 = a mod 67108864.
Proof. exact (land_ones_mod a 26 ltac:(lia)). Qed.
Lemma land_ffffffff a : Z.land a 4294967295 = a mod 4294967296.
Proof. exact (land_ones_mod a 32 ltac:(lia)). Qed.

Lemma shiftl_mul a n : 0 <= n -> Z.shiftl a n = a * 2 ^ n.
Proof. apply Z.shiftl_mul_pow2. Qed.
Lemma shiftr_div a n : 0 <= n -> Z.shiftr a n = a / 2 ^ n.
Proof. apply Z.shiftr_div_pow2. Qed.

(** Disjoint [lor] is addition. *)
Lemma lor_add_disjoint a b : Z.land a b = 0 -> Z.lor a b = a + b.
Proof. intros H. symmetry. rewrite <- Z.lxor_lor by exact H. apply Z.add_nocarry_lxor. exact H. Qed.

Lemma land_mul_pow2_small a b n : 0 <= n -> 0 <= b < 2 ^ n -> Z.land (a * 2 ^ n) b = 0.
Proof.
  intros Hn Hb. apply Z.bits_inj'. intros i Hi.
  rewrite Z.land_spec, Z.bits_0.
  destruct (Z.ltb_spec i n).
  - rewrite Z.mul_pow2_bits_low by lia. reflexivity.
  - destruct (Z.eq_dec b 0) as [->|Hb0].
    + rewrite Z.bits_0. apply andb_false_r.
    + rewrite (Z.bits_above_log2 b i), andb_false_r; [reflexivity| lia |].
      apply Z.lt_le_trans with n; [|lia]. apply Z.log2_lt_pow2; lia.
Qed.

Lemma lor_mul_pow2_small a b n : 0 <= n -> 0 <= b < 2 ^ n -> Z.lor (a * 2 ^ n) b = a * 2 ^ n + b.
Proof. intros. apply lor_add_disjoint. apply land_mul_pow2_small; assumption. Qed.

Lemma lor_small_mul_pow2 a b n : 0 <= n -> 0 <= b < 2 ^ n -> Z.lor b (a * 2 ^ n) = b + a * 2 ^ n.
Proof. intros. rewrite Z.lor_comm, lor_mul_pow2_small by assumption. lia. Qed.

(** Bit-wise view of [bits]. *)
Lemma bits_range x lo len : 0 <= len -> 0 <= bits x lo len < 2 ^ len.
Proof. intros. unfold bits. apply Z.mod_pos_bound. apply Z.pow_pos_nonneg; lia. Qed.

Lemma bits_testbit x lo len i :
  0 <= lo -> 0 <= len -> 0 <= i ->
  Z.testbit (bits x lo len) i = (i <? len) && Z.testbit x (lo + i).
Proof.
  intros Hlo Hlen Hi. unfold bits.
  destruct (Z.ltb_spec i len).
  - rewrite Z.mod_pow2_bits_low by lia. rewrite Z.div_pow2_bits by lia.
    rewrite Z.add_comm. reflexivity.
  - rewrite Z.mod_pow2_bits_high by lia. reflexivity.
Qed.

Lemma bits_lor x y lo len :
  0 <= lo -> 0 <= len -> bits (Z.lor x y) lo len = Z.lor (bits x lo len) (bits y lo len).
Proof.
  intros. apply Z.bits_inj'. intros i Hi.
  rewrite Z.lor_spec, !bits_testbit, Z.lor_spec by lia.
  destruct (i <? len); reflexivity.
Qed.

(** A field placed at [p] with [n] bits is invisible to a disjoint field. *)
Lemma bits_shiftl_disjoint v p n lo len :
  0 <= p -> 0 <= n -> 0 <= lo -> 0 <= len -> 0 <= v < 2 ^ n ->
  (lo + len <= p \/ p + n <= lo) -> bits (Z.shiftl v p) lo len = 0.
Proof.
  intros Hp Hn Hlo Hlen Hv Hd. apply Z.bits_inj'. intros i Hi.
  rewrite bits_testbit, Z.bits_0 by lia.
  destruct (Z.ltb_spec i len); [cbn [andb]|reflexivity].
  rewrite Z.shiftl_spec by lia.
  destruct Hd.
  - rewrite Z.testbit_neg_r by lia. reflexivity.
  - destruct (Z.eq_dec v 0) as [->|]; [apply Z.bits_0|].
    apply Z.bits_above_log2; [lia|].
    apply Z.lt_le_trans with n; [|lia]. apply Z.log2_lt_pow2; lia.
Qed.

Lemma bits_shiftl_same v p n :
  0 <= p -> 0 <= n -> 0 <= v < 2 ^ n -> bits (Z.shiftl v p) p n = v.
Proof.
  intros. unfold bits. rewrite Z.shiftl_mul_pow2 by lia.
  rewrite Z.div_mul by (apply Z.pow_nonzero; lia).
  apply Z.mod_small. lia.
Qed.

Lemma testbit_small v n i : 0 <= v < 2 ^ n -> n <= i -> 0 <= i -> Z.testbit v i = false.
Proof.
  intros Hv Hn Hi. destruct (Z.eq_dec v 0) as [->|]; [apply Z.bits_0|].
  apply Z.bits_above_log2; [lia|].
  apply Z.lt_le_trans with n; [|lia]. apply Z.log2_lt_pow2; lia.
Qed.
