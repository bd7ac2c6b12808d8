(** Proofs about half precision immediates. *)

Require Import ZArith Bool Lia List.
Require Import Floats.SpecFloat.
From Verif Require Import Ints FloatModel FloatSpec FloatProofs ExprModel HalfModel HalfSpec.
Local Open Scope Z_scope.

Lemma fields s E F : 0 <= E < 2048 -> 0 <= F < 2 ^ 52 ->
  let b := pack 53 64 s E F in bits b 0 52 = F /\ bits b 52 11 = E /\ bits b 63 1 = Z.b2z s.
Proof.
  intros HE HF b. unfold b, pack, bits. change (53 - 1) with 52. change (64 - 1) with 63.
  set (S := if s then 2 ^ 63 else 0).
  assert (HS : S = Z.b2z s * 2 ^ 63) by (unfold S; destruct s; reflexivity). rewrite HS. clear HS S.
  assert (Hb : 0 <= Z.b2z s <= 1) by (destruct s; cbn; lia). set (t := Z.b2z s) in *. clearbody t.
  change (2 ^ 0) with 1. change (2 ^ 1) with 2. change (2 ^ 11) with 2048. rewrite Z.div_1_r.
  split; [|split].
  - symmetry. apply (Z.mod_unique_pos _ _ (t * 2048 + E)); [exact HF|]. change (2 ^ 63) with (2048 * 2 ^ 52). ring.
  - replace ((t * 2 ^ 63 + E * 2 ^ 52 + F) / 2 ^ 52) with (t * 2048 + E).
    + symmetry. apply (Z.mod_unique_pos _ _ t); [exact HE|ring].
    + apply (Z.div_unique_pos _ _ _ F); [exact HF|]. change (2 ^ 63) with (2048 * 2 ^ 52). ring.
  - replace ((t * 2 ^ 63 + E * 2 ^ 52 + F) / 2 ^ 63) with t; [apply Z.mod_small; lia|].
    apply (Z.div_unique_pos _ _ _ (E * 2 ^ 52 + F)); [|change (2 ^ 63) with (2048 * 2 ^ 52); ring].
    change (2 ^ 63) with (2048 * 2 ^ 52). split; [apply Z.add_nonneg_nonneg; [apply Z.mul_nonneg_nonneg; lia|lia]|].
    assert (E * 2 ^ 52 <= 2047 * 2 ^ 52) by (apply Z.mul_le_mono_nonneg_r; lia). lia.
Qed.

Lemma half_word s E F : half_fields E F -> u16 (Z.lor (Z.lor (Z.shiftl (Z.b2z s) 15) (Z.shiftl E 10)) F) = half s E F.
Proof.
  intros [HE HF].
  assert (A : forallb (fun E => forallb (fun s => (Z.lor (Z.shiftl (Z.b2z s) 15) (Z.shiftl (Z.of_nat E) 10)) =? half s (Z.of_nat E) 0) (true :: false :: nil)) (seq 0 32) = true) by (vm_compute; reflexivity).
  rewrite forallb_forall in A. specialize (A (Z.to_nat E) ltac:(apply in_seq; lia)). rewrite Z2Nat.id in A by lia.
  rewrite forallb_forall in A. specialize (A s ltac:(destruct s; cbn; auto)). apply Z.eqb_eq in A. rewrite A.
  assert (L : Z.land (half s E 0) F = 0).
  { apply Z.bits_inj'. intros n Hn. rewrite Z.land_spec, Z.bits_0. destruct (Z.ltb_spec n 10).
    - replace (half s E 0) with ((half s 0 0 / 1024 + E) * 2 ^ 10) by (unfold half; destruct s; cbn [Z.div]; change (2 ^ 10) with 1024; lia).
      rewrite Z.mul_pow2_bits_low by lia. reflexivity.
    - rewrite (Z.bits_above_log2 F n), andb_false_r; [reflexivity|lia|].
      destruct (Z.eq_dec F 0) as [->|]; [cbn; lia|]. apply Z.log2_lt_pow2; [lia|]. apply (Z.lt_le_trans _ (2 ^ 10)); [change (2 ^ 10) with 1024; lia|apply Z.pow_le_mono_r; lia]. }
  rewrite <- Z.lxor_lor, <- Z.add_nocarry_lxor by exact L. unfold u16. unfold half in *. rewrite Z.mod_small; destruct s; lia.
Qed.

(** ** Nearest *)
(** A half is below 1024 units of the exponent E, or a multiple of the unit. *)
Lemma spacing E E' F' : 1 <= E -> half_fields E' F' ->
  magnitude E' F' < 1024 * 2 ^ (E + 1049) \/ exists k, magnitude E' F' = k * 2 ^ (E + 1049).
Proof.
  intros HE [HE' HF']. unfold magnitude. destruct (Z.eqb_spec E' 0) as [->|N].
  - left. apply (Z.lt_le_trans _ (1024 * 2 ^ 1050)); [apply Z.mul_lt_mono_pos_r; lia|]. apply Z.mul_le_mono_nonneg_l; [lia|]. apply Z.pow_le_mono_r; lia.
  - destruct (Z.lt_ge_cases E' E) as [L|L].
    + left. apply (Z.lt_le_trans _ (2048 * 2 ^ (E' + 1049))); [apply Z.mul_lt_mono_pos_r; [apply Z.pow_pos_nonneg; lia|lia]|].
      change 2048 with (1024 * 2 ^ 1). rewrite <- Z.mul_assoc, <- Z.pow_add_r by lia. apply Z.mul_le_mono_nonneg_l; [lia|]. apply Z.pow_le_mono_r; lia.
    + right. exists ((1024 + F') * 2 ^ (E' - E)). rewrite <- Z.mul_assoc, <- Z.pow_add_r by lia. do 2 f_equal. lia.
Qed.
Lemma magnitude_max E F : half_fields E F -> E < 31 -> 0 <= magnitude E F <= 2047 * 2 ^ 1079.
Proof.
  intros [HE HF] L. unfold magnitude. destruct (Z.eqb_spec E 0) as [->|N].
  - split; [apply Z.mul_nonneg_nonneg; lia|]. apply Z.mul_le_mono_nonneg; lia.
  - split; [apply Z.mul_nonneg_nonneg; [lia|apply Z.pow_nonneg; lia]|].
    apply Z.mul_le_mono_nonneg; [lia|lia|apply Z.pow_nonneg; lia|apply Z.pow_le_mono_r; lia].
Qed.

(** M is the multiple of u next to x, halves rounded up. *)
Lemma multiple x u M k : 0 < u -> 2 * M * u <= 2 * x + u < 2 * M * u + 2 * u ->
  Z.abs (x - M * u) < Z.abs (x - k * u) \/ (Z.abs (x - M * u) = Z.abs (x - k * u) /\ k * u <= M * u).
Proof.
  intros U [A B]. destruct (Z.lt_trichotomy k M) as [L|[->|L]].
  - assert (k * u <= M * u - u) by nia. lia.
  - right. lia.
  - assert (M * u + u <= k * u) by nia. lia.
Qed.

Lemma nearest_mag x s E F : half_fields E F -> E < 31 -> 0 <= x ->
  (forall E' F', half_fields E' F' -> E' < 31 ->
     Z.abs (x - magnitude E F) < Z.abs (x - magnitude E' F') \/ (Z.abs (x - magnitude E F) = Z.abs (x - magnitude E' F') /\ magnitude E' F' <= magnitude E F)) ->
  0 < magnitude E F -> nearest (signed s x) (half s E F).
Proof.
  intros HF L X H P. exists s, E, F. split; [exact HF|]. split; [exact L|]. split; [reflexivity|].
  intros s' E' F' HF' L' d d'. pose proof (H E' F' HF' L') as G. pose proof (magnitude_max E' F' HF' L') as [G0 _].
  pose proof (H 0 0 ltac:(split; lia) ltac:(lia)) as Z0. change (magnitude 0 0) with 0 in Z0.
  unfold d, d', signed. generalize dependent (magnitude E F). generalize dependent (magnitude E' F'). clear. intros m' G0 m G0' Pm Gm Z0 . revert Z0. 
  destruct s, s'; lia.
Qed.

Lemma double_cases s m e : valid_binary 53 1024 (S754_finite s m e) = true ->
  (Zpos m < 2 ^ 52 /\ e = -1074) \/ (2 ^ 52 <= Zpos m < 2 ^ 53 /\ -1074 <= e <= 971).
Proof.
  intros V. cbn [valid_binary] in V. unfold bounded, canonical_mantissa in V. apply andb_true_iff in V. destruct V as [V1 V2]. apply Zeq_bool_eq in V1.
  unfold fexp, emin in V1. pose proof (digits_bounds m) as [D1 D2]. apply Z.leb_le in V2.
  destruct (Z.lt_ge_cases (Zpos m) (2 ^ 52)) as [L|L].
  - left. split; [exact L|]. pose proof (digits_le m 52 ltac:(lia) L). lia.
  - right. pose proof (digits_ge m 52 ltac:(lia) L). split; [split; [exact L|]|lia].
    apply (Z.lt_le_trans _ (2 ^ Zpos (digits2_pos m))); [lia|apply Z.pow_le_mono_r; lia].
Qed.

(** The rounded fraction. *)
Lemma round_fraction m : 2 ^ 52 <= m < 2 ^ 53 ->
  let q := Z.shiftr (Z.shiftr (m - 2 ^ 52) 41 + 1) 1 in
  0 <= q <= 1024 /\ 2 * (1024 + q) * 2 ^ 42 <= 2 * m + 2 ^ 42 < 2 * (1024 + q) * 2 ^ 42 + 2 * 2 ^ 42.
Proof.
  intros H q. unfold q. rewrite !Z.shiftr_div_pow2 by lia.
  assert (A := Z.div_mod (m - 2 ^ 52) (2 ^ 41) ltac:(lia)). assert (A' := Z.mod_pos_bound (m - 2 ^ 52) (2 ^ 41) ltac:(lia)).
  set (a := (m - 2 ^ 52) / 2 ^ 41) in *. set (r := (m - 2 ^ 52) mod 2 ^ 41) in *. clearbody a r.
  assert (B := Z.div_mod (a + 1) (2 ^ 1) ltac:(lia)). assert (B' := Z.mod_pos_bound (a + 1) (2 ^ 1) ltac:(lia)).
  set (b := (a + 1) / 2 ^ 1) in *. set (t := (a + 1) mod 2 ^ 1) in *. clearbody b t.
  change (2 ^ 1) with 2 in *. change (2 ^ 53) with (4096 * 2 ^ 41) in *. change (2 ^ 52) with (2048 * 2 ^ 41) in *. change (2 ^ 42) with (2 * 2 ^ 41).
  assert (P : 2 ^ 41 = 2199023255552) by reflexivity. rewrite P in *. lia.
Qed.

Lemma finite_fields nan s m e : 2 ^ 52 <= Zpos m < 2 ^ 53 -> -1074 <= e <= 971 ->
  let b := float_bits 53 1024 64 nan (S754_finite s m e) in
  bits b 0 52 = Zpos m - 2 ^ 52 /\ bits b 52 11 = e + 1075 /\ bits b 63 1 = Z.b2z s.
Proof.
  intros M E b. unfold b. cbn [float_bits]. change (53 - 1) with 52.
  destruct (Z.ltb_spec (Zpos m) (2 ^ 52)); [lia|].
  replace (e - emin 53 1024 + 1) with (e + 1075) by (unfold emin; lia).
  apply (fields s (e + 1075) (Zpos m - 2 ^ 52)); [lia|]. change (2 ^ 53) with (2 * 2 ^ 52) in M. lia.
Qed.

(** The half of a number that is not too small. *)
Lemma half_normal nan s m e : 2 ^ 52 <= Zpos m < 2 ^ 53 -> -66 <= e <= 971 ->
  nearest (double_value (S754_finite s m e)) (to_half nan (S754_finite s m e)).
Proof.
  intros M E. destruct (finite_fields nan s m e M ltac:(lia)) as (F1 & F2 & F3).
  unfold to_half. rewrite F1, F2, F3. clear F1 F2 F3. cbv zeta.
  destruct (Z.eqb_spec (e + 1075) 2047); [lia|]. cbn [andb]. destruct (Z.leb_spec (e + 1075) 1008); [lia|].
  replace (u16 (e + 1075 - 1008)) with (e + 67) by (unfold u16; rewrite Z.mod_small; lia).
  destruct (round_fraction (Zpos m) M) as [Q R]. cbv zeta in Q, R.
  set (q := Z.shiftr (Z.shiftr (Zpos m - 2 ^ 52) 41 + 1) 1) in *. clearbody q.
  cbn [double_value]. set (x := Zpos m * 2 ^ (e + 1074)).
  set (u := 2 ^ (e + 67 + 1049)).
  assert (Hw : 0 < 2 ^ (e + 1074)) by (apply Z.pow_pos_nonneg; lia).
  assert (Hu : u = 2 ^ 42 * 2 ^ (e + 1074)) by (unfold u; rewrite <- Z.pow_add_r by lia; f_equal; lia).
  assert (U : 0 < u) by (unfold u; apply Z.pow_pos_nonneg; lia).
  assert (RX : 2 * (1024 + q) * u <= 2 * x + u < 2 * (1024 + q) * u + 2 * u).
  { rewrite Hu. unfold x. clear - R Hw. set (w := 2 ^ (e + 1074)) in *. clearbody w. set (k := 2 ^ 42) in *. clearbody k. nia. }
  assert (X0 : 1024 * u <= x).
  { rewrite Hu. unfold x. change (2 ^ 42) with 4398046511104. change (2 ^ 52) with 4503599627370496 in M. clear - M Hw. set (w := 2 ^ (e + 1074)) in *. clearbody w. nia. }
  (* the halves against x *)
  assert (N : forall E' F', half_fields E' F' ->
     Z.abs (x - (1024 + q) * u) < Z.abs (x - magnitude E' F') \/ (Z.abs (x - (1024 + q) * u) = Z.abs (x - magnitude E' F') /\ magnitude E' F' <= (1024 + q) * u)).
  { intros E' F' H'. destruct (spacing (e + 67) E' F' ltac:(lia) H') as [S|(k & S)]; fold u in S.
    - left. pose proof (multiple x u (1024 + q) 1024 U RX) as K. clear - K S X0 Q U. assert (1024 * u <= (1024 + q) * u) by nia. lia.
    - rewrite S. apply multiple; assumption. }
  assert (Top : forall E F, half_fields E F -> E < 31 -> 2047 * 2 ^ 1079 <= x -> E = 30 -> F = 1023 -> nearest (signed s x) (u16 (Z.lor (Z.lor (Z.shiftl (Z.b2z s) 15) (Z.shiftl E 10)) F))).
  { intros E0 F0 H0 L0 X -> ->. rewrite half_word by exact H0.
    assert (MM : magnitude 30 1023 = 2047 * 2 ^ 1079) by reflexivity.
    assert (PP : 0 < 2 ^ 1079) by (apply Z.pow_pos_nonneg; lia).
    apply nearest_mag; [exact H0|exact L0|clear - X PP; lia| |rewrite MM; clear - PP; lia].
    intros E' F' H' L'. pose proof (magnitude_max E' F' H' L') as G. rewrite MM. clear - G X. set (t := 2047 * 2 ^ 1079) in *. clearbody t. lia. }
  assert (Big : 31 <= e + 67 -> 2047 * 2 ^ 1079 <= x).
  { intros L. apply (Z.le_trans _ (1024 * u)); [|exact X0]. assert (2 ^ 1080 <= u) by (unfold u; apply Z.pow_le_mono_r; lia).
    change (2 ^ 1080) with (2 * 2 ^ 1079) in H0. assert (0 < 2 ^ 1079) by (apply Z.pow_pos_nonneg; lia). clear - H0 H1. set (t := 2 ^ 1079) in *. clearbody t. lia. }
  destruct (Z.eqb_spec q 1024) as [Q1|Q1].
  - subst q. replace (u16 (e + 67 + 1)) with (e + 68) by (unfold u16; rewrite Z.mod_small; lia).
    destruct (Z.leb_spec 31 (e + 68)) as [L|L].
    + apply Top; [split; lia|lia| |reflexivity|reflexivity]. destruct (Z.eq_dec e (-37)) as [-> |]; [|apply Big; lia].
      change u with (2 ^ 1079) in RX. clear - RX. set (t := 2 ^ 1079) in *. clearbody t. lia.
    + rewrite half_word by (split; lia).
      assert (MM : magnitude (e + 68) 0 = (1024 + 1024) * u).
      { unfold magnitude. destruct (Z.eqb_spec (e + 68) 0); [lia|]. replace (e + 68 + 1049) with (1 + (e + 67 + 1049)) by lia. rewrite Z.pow_add_r by lia. unfold u. change (2 ^ 1) with 2. ring. }
      apply nearest_mag; [split; lia|lia|lia| |rewrite MM; lia]. intros E' F' H' _. rewrite MM. apply N; exact H'.
  - destruct (Z.leb_spec 31 (e + 67)) as [L|L].
    + apply Top; [split; lia|lia|apply Big; exact L|reflexivity|reflexivity].
    + rewrite half_word by (split; lia).
      assert (MM : magnitude (e + 67) q = (1024 + q) * u) by (unfold magnitude; destruct (Z.eqb_spec (e + 67) 0); [lia|reflexivity]).
      apply nearest_mag; [split; lia|lia|lia| |rewrite MM; nia]. intros E' F' H' _. rewrite MM. apply N; exact H'.
Qed.

Lemma half_rounds nan x : valid_binary 53 1024 x = true -> smallest_normal <= Z.abs (double_value x) -> nearest (double_value x) (to_half nan x).
Proof.
  intros V S. assert (Z0 : 0 < smallest_normal) by (apply Z.pow_pos_nonneg; lia).
  destruct x as [s|s| |s m e]; try (exfalso; cbn [double_value] in S; change (Z.abs 0) with 0 in S; clear - S Z0; lia).
  assert (A : smallest_normal <= Zpos m * 2 ^ (e + 1074)).
  { assert (0 <= Zpos m * 2 ^ (e + 1074)) by (apply Z.mul_nonneg_nonneg; [lia|apply Z.pow_nonneg; lia]). cbn [double_value] in S. destruct s; cbn [signed] in S; lia. }
  unfold smallest_normal in A.
  destruct (double_cases s m e V) as [[M ->]|[M E]].
  - exfalso. change (2 ^ (-1074 + 1074)) with 1 in A. assert (2 ^ 52 < 2 ^ 1060) by (apply Z.pow_lt_mono_r; lia). lia.
  - apply half_normal; [exact M|]. split; [|lia]. destruct (Z.le_gt_cases (-66) e) as [|L]; [assumption|exfalso].
    assert (B : Zpos m * 2 ^ (e + 1074) < 2 ^ 53 * 2 ^ (e + 1074)) by (apply Z.mul_lt_mono_pos_r; [apply Z.pow_pos_nonneg; lia|lia]).
    rewrite <- Z.pow_add_r in B by lia. assert (2 ^ (53 + (e + 1074)) <= 2 ^ 1060) by (apply Z.pow_le_mono_r; lia). lia.
Qed.

Lemma half_flush nan s m e : valid_binary 53 1024 (S754_finite s m e) = true -> Z.abs (double_value (S754_finite s m e)) < smallest_normal ->
  to_half nan (S754_finite s m e) = half s 0 0.
Proof.
  intros V S. assert (A : Zpos m * 2 ^ (e + 1074) < smallest_normal).
  { assert (0 <= Zpos m * 2 ^ (e + 1074)) by (apply Z.mul_nonneg_nonneg; [lia|apply Z.pow_nonneg; lia]). cbn [double_value] in S. destruct s; cbn [signed] in S; lia. }
  assert (W : forall mant expo, 0 <= expo <= 1008 -> bits (float_bits 53 1024 64 nan (S754_finite s m e)) 0 52 = mant ->
     bits (float_bits 53 1024 64 nan (S754_finite s m e)) 52 11 = expo -> bits (float_bits 53 1024 64 nan (S754_finite s m e)) 63 1 = Z.b2z s ->
     to_half nan (S754_finite s m e) = half s 0 0).
  { intros mant expo X B1 B2 B3. unfold to_half. rewrite B1, B2, B3. cbv zeta. destruct (Z.eqb_spec expo 2047); [lia|]. cbn [andb].
    destruct (Z.leb_spec expo 1008); [|lia]. destruct s; reflexivity. }
  destruct (double_cases s m e V) as [[M ->]|[M E]].
  - cbn [float_bits] in W. change (53 - 1) with 52 in W. destruct (Z.ltb_spec (Zpos m) (2 ^ 52)); [|lia].
    destruct (fields s 0 (Zpos m) ltac:(lia) ltac:(lia)) as (F1 & F2 & F3). apply (W (Zpos m) 0); [lia|assumption|assumption|assumption].
  - destruct (finite_fields nan s m e M E) as (F1 & F2 & F3). cbv zeta in F1, F2, F3.
    apply (W (Zpos m - 2 ^ 52) (e + 1075)); try assumption. split; [lia|]. destruct (Z.le_gt_cases (e + 1075) 1008) as [|L]; [assumption|exfalso].
    unfold smallest_normal in A. assert (2 ^ 52 * 2 ^ (e + 1074) <= Zpos m * 2 ^ (e + 1074)) by (apply Z.mul_le_mono_nonneg_r; [apply Z.pow_nonneg; lia|lia]).
    rewrite <- Z.pow_add_r in H by lia. assert (2 ^ 1060 <= 2 ^ (52 + (e + 1074))) by (apply Z.pow_le_mono_r; lia). lia.
Qed.

Lemma half_special nan s : to_half nan (S754_zero s) = half s 0 0 /\ to_half nan (S754_infinity s) = half s 31 0.
Proof. destruct s; split; vm_compute; reflexivity. Qed.
Lemma half_nan nan : bits nan 52 11 = 2047 -> bits nan 0 52 <> 0 -> exists s, to_half nan S754_nan = half s 31 1.
Proof.
  intros A B. unfold to_half. cbn [float_bits]. rewrite A. cbv zeta. rewrite (proj2 (Z.eqb_neq _ _) B). cbn [Z.eqb Pos.eqb andb negb].
  assert (C : bits nan 63 1 = 0 \/ bits nan 63 1 = 1) by (unfold bits; pose proof (Z.mod_pos_bound (nan / 2 ^ 63) (2 ^ 1) ltac:(lia)); change (2 ^ 1) with 2 in *; lia).
  destruct C as [-> | ->]; [exists false|exists true]; reflexivity.
Qed.

(** ** Back and forth *)
Lemma half_bits s E F : half_fields E F -> bits (half s E F) 0 10 = F /\ bits (half s E F) 10 5 = E /\ bits (half s E F) 15 1 = Z.b2z s.
Proof.
  intros [HE HF]. unfold bits, half. change (2 ^ 0) with 1. change (2 ^ 10) with 1024. change (2 ^ 5) with 32. change (2 ^ 15) with 32768. change (2 ^ 1) with 2.
  destruct s; cbn [Z.b2z]; split; [|split| |split]; Z.to_euclidean_division_equations; lia.
Qed.
Lemma from_half_finite s E F : half_fields E F -> 0 < E < 31 ->
  exists m, Zpos m = 2 ^ 52 + F * 2 ^ 42 /\ from_half (half s E F) = S754_finite s m (E - 67).
Proof.
  intros H L. destruct (half_bits s E F H) as (B1 & B2 & B3). destruct H as [HE HF].
  assert (FF : 0 <= F * 2 ^ 42 < 2 ^ 52) by (change (2 ^ 52) with (1024 * 2 ^ 42); assert (0 < 2 ^ 42) by reflexivity; split; [apply Z.mul_nonneg_nonneg; lia|apply Z.mul_lt_mono_pos_r; lia]).
  assert (P : 0 < 2 ^ 52 + F * 2 ^ 42) by lia. destruct (2 ^ 52 + F * 2 ^ 42) as [|m|] eqn:M; [lia| |lia]. exists m. split; [reflexivity|].
  unfold from_half. rewrite B1, B2, B3. cbv zeta. destruct (Z.eqb_spec E 31); [lia|]. cbn [andb]. destruct (Z.eqb_spec E 0); [lia|].
  replace (Z.b2z s =? 1) with s by (destruct s; reflexivity). rewrite Z.shiftl_mul_pow2 by lia.
  destruct (unpack 53 1024 eq_refl 64 eq_refl eq_refl s (E + 1008) (F * 2 ^ 42)) as (U1 & U2 & U3 & _).
  { change (2 ^ (64 - 53)) with 2048. lia. }
  { exact FF. }
  unfold double, ieee. rewrite U1, U2, U3. change (2 ^ (64 - 53) - 1) with 2047. change (2 ^ (53 - 1)) with (2 ^ 52).
  destruct (Z.eqb_spec (E + 1008) 2047); [lia|]. destruct (Z.eqb_spec (E + 1008) 0); [lia|].
  rewrite Z.add_comm, M. f_equal. lia.
Qed.
Lemma half_back nan s E F : half_fields E F -> E < 31 -> (E = 0 -> F = 0) -> to_half nan (from_half (half s E F)) = half s E F.
Proof.
  intros H L Z0. destruct (Z.eq_dec E 0) as [-> |N].
  - rewrite (Z0 eq_refl). destruct s; vm_compute; reflexivity.
  - destruct H as [HE HF]. destruct (from_half_finite s E F (conj HE HF) ltac:(lia)) as (m & M & ->).
    assert (MM : 2 ^ 52 <= Zpos m < 2 ^ 53).
    { rewrite M. change (2 ^ 53) with (2 * (1024 * 2 ^ 42)). change (2 ^ 52) with (1024 * 2 ^ 42). assert (0 < 2 ^ 42) by reflexivity. set (t := 2 ^ 42) in *. clearbody t. nia. }
    destruct (finite_fields nan s m (E - 67) MM ltac:(lia)) as (F1 & F2 & F3).
    unfold to_half. rewrite F1, F2, F3. clear F1 F2 F3. cbv zeta.
    destruct (Z.eqb_spec (E - 67 + 1075) 2047); [lia|]. cbn [andb]. destruct (Z.leb_spec (E - 67 + 1075) 1008); [lia|].
    replace (u16 (E - 67 + 1075 - 1008)) with E by (unfold u16; rewrite Z.mod_small; lia).
    replace (Z.shiftr (Z.shiftr (Zpos m - 2 ^ 52) 41 + 1) 1) with F.
    2:{ rewrite M, !Z.shiftr_div_pow2 by lia. replace (2 ^ 52 + F * 2 ^ 42 - 2 ^ 52) with (F * 2 * 2 ^ 41) by (change (2 ^ 42) with (2 * 2 ^ 41); ring).
        rewrite Z.div_mul by lia. change (2 ^ 1) with 2. apply (Z.div_unique_pos _ _ _ 1); lia. }
    destruct (Z.eqb_spec F 1024); [lia|]. destruct (Z.leb_spec 31 E); [lia|]. apply half_word. split; assumption.
Qed.

(** ** Integers *)
Lemma int_exact i : Z.abs i < 2 ^ 53 -> double_value (int_to_double i) = i * 2 ^ 1074.
Proof.
  assert (K : forall s m, Zpos m < 2 ^ 53 -> double_value (binary_round 53 1024 s m 0) = signed s (Zpos m * 2 ^ 1074)).
  { intros s m L. unfold binary_round, shl_align. rewrite Z.add_0_r, Z.sub_0_r. pose proof (digits_le m 53 ltac:(lia) L) as D.
    assert (FE : fexp 53 1024 (Zpos (digits2_pos m)) = Zpos (digits2_pos m) - 53) by (unfold fexp, emin; lia). rewrite FE.
    assert (R : forall mz ez, fexp 53 1024 (Zpos (digits2_pos mz) + ez) = ez -> -1074 <= ez <= 0 ->
      binary_round_aux 53 1024 s (Zpos mz) ez loc_Exact = S754_finite s mz ez).
    { intros mz ez FX HE. unfold binary_round_aux, shr_fexp. cbn [Zdigits2]. rewrite FX, Z.sub_diag. cbn [shr shr_record_of_loc loc_of_shr_record shr_m shr_r shr_s round_nearest_even Zdigits2].
      rewrite FX, Z.sub_diag. cbn [shr shr_m]. destruct (Z.leb_spec ez (1024 - 53)); [reflexivity|lia]. }
    destruct (Zpos (digits2_pos m) - 53) as [|p|p] eqn:DD.
    - rewrite R; [reflexivity| |lia]. rewrite Z.add_0_r, FE. reflexivity.
    - lia.
    - rewrite R; [| |lia].
      + cbn [double_value]. f_equal. rewrite shift_pos_correct. change (Z.pow_pos 2 p) with (2 ^ Zpos p). rewrite (Z.mul_comm (2 ^ Zpos p)), <- Z.mul_assoc, <- Z.pow_add_r by lia. do 2 f_equal. lia.
      + rewrite shl_digits, Pos2Z.inj_add. unfold fexp, emin. lia. }
  intros L. unfold int_to_double, prec64, emax64. destruct i as [|p|p]; cbn [binary_normalize]; [reflexivity| |].
  - rewrite K by lia. reflexivity.
  - rewrite K by lia. cbn [signed]. lia.
Qed.
Lemma half_integer nan i : i <> 0 -> Z.abs i < 2 ^ 53 -> exists h, immediate_half nan (VInt i) = Some h /\ nearest (i * 2 ^ 1074) h.
Proof.
  intros N L. exists (to_half nan (int_to_double i)). split; [reflexivity|]. rewrite <- (int_exact i L). apply half_rounds.
  - unfold int_to_double. apply valid_normalize. reflexivity.
  - rewrite (int_exact i L), Z.abs_mul. unfold smallest_normal. assert (2 ^ 1060 <= 2 ^ 1074) by (apply Z.pow_le_mono_r; lia).
    assert (0 < 2 ^ 1060) by (apply Z.pow_pos_nonneg; lia). rewrite (Z.abs_eq (2 ^ 1074)) by (apply Z.pow_nonneg; lia).
    clear L. set (a := 2 ^ 1060) in *. set (b := 2 ^ 1074) in *. clearbody a b. nia.
Qed.
(** 2^-14 - 2^-26 *)
Lemma half_not_nearest nan : exists x, valid_binary 53 1024 x = true /\ 0 < double_value x /\ to_half nan x = half false 0 0 /\
  4095 * (Z.abs (double_value x - magnitude 1 0)) <= Z.abs (double_value x - magnitude 0 0) /\
  forall E F, half_fields E F -> E < 31 -> Z.abs (double_value x - magnitude 1 0) <= Z.abs (double_value x - magnitude E F).
Proof.
  exists (S754_finite false (2 ^ 53 - 2 ^ 41)%positive (-67)). split; [vm_compute; reflexivity|]. split; [vm_compute; reflexivity|]. split; [vm_compute; reflexivity|].
  split; [vm_compute; discriminate|]. intros E F H L.
  assert (X : double_value (S754_finite false (2 ^ 53 - 2 ^ 41)%positive (-67)) = 2 ^ 1060 - 2 ^ 1048) by (vm_compute; reflexivity). rewrite X.
  assert (M1 : magnitude 1 0 = 2 ^ 1060) by (vm_compute; reflexivity). rewrite M1.
  assert (P : 0 < 2 ^ 1048) by (apply Z.pow_pos_nonneg; lia).
  assert (Q : 2 ^ 1060 = 4096 * 2 ^ 1048) by (change 4096 with (2 ^ 12); rewrite <- Z.pow_add_r by lia; reflexivity).
  assert (R : 2 ^ 1050 = 4 * 2 ^ 1048) by (change 4 with (2 ^ 2); rewrite <- Z.pow_add_r by lia; reflexivity).
  destruct (spacing 1 E F ltac:(lia) H) as [S|(k & S)].
  - assert (magnitude E F <= 2 ^ 1060 - 2 ^ 1050).
    { revert S. unfold magnitude. destruct H as [HE HF]. destruct (Z.eqb_spec E 0) as [-> |N].
      - intros _. rewrite Q, R. clear - HF P. set (t := 2 ^ 1048) in *. clearbody t. nia.
      - intros S. exfalso. assert (1024 * 2 ^ (1 + 1049) <= (1024 + F) * 2 ^ (E + 1049)); [|lia].
        apply Z.mul_le_mono_nonneg; [lia|lia|apply Z.pow_nonneg; lia|apply Z.pow_le_mono_r; lia]. }
    rewrite Q, R in *. clear - H0 P. set (t := 2 ^ 1048) in *. clearbody t. lia.
  - rewrite S. change (1 + 1049) with 1050. rewrite Q, R. clear - P. set (t := 2 ^ 1048) in *. clearbody t.
    destruct (Z.le_gt_cases k 1023); [|destruct (Z.eq_dec k 1024)]; nia.
Qed.
