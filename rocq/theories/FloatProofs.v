(** Rounding gives representable numbers; their bits decode to them. *)

Require Import ZArith Lia Bool ZifyBool.
Require Import Floats.SpecFloat.
From Verif Require Import Ints IntsLemmas FloatModel FloatSpec.
Local Open Scope Z_scope.

Lemma digits_bounds p : 2 ^ (Zpos (digits2_pos p) - 1) <= Zpos p < 2 ^ Zpos (digits2_pos p).
Proof.
  induction p as [p IH|p IH|]; cbn [digits2_pos]; [| |cbn; lia];
    rewrite Pos2Z.inj_succ; replace (Z.succ (Zpos (digits2_pos p)) - 1) with (Z.succ (Zpos (digits2_pos p) - 1)) by lia;
    rewrite !Z.pow_succ_r by lia; lia.
Qed.
Lemma digits_le p n : 0 <= n -> Zpos p < 2 ^ n -> Zpos (digits2_pos p) <= n.
Proof.
  intros Hn H. pose proof (digits_bounds p) as [B _]. destruct (Z.le_gt_cases (Zpos (digits2_pos p)) n) as [|C]; [assumption|].
  assert (2 ^ n <= 2 ^ (Zpos (digits2_pos p) - 1)) by (apply Z.pow_le_mono_r; lia). lia.
Qed.
Lemma digits_ge p n : 0 <= n -> 2 ^ n <= Zpos p -> n + 1 <= Zpos (digits2_pos p).
Proof.
  intros Hn H. pose proof (digits_bounds p) as [_ B]. destruct (Z.le_gt_cases (n + 1) (Zpos (digits2_pos p))) as [|C]; [assumption|].
  assert (2 ^ Zpos (digits2_pos p) <= 2 ^ n) by (apply Z.pow_le_mono_r; lia). lia.
Qed.

Lemma iter_pos_iter {A} (f : A -> A) p : forall x, iter_pos f p x = Pos.iter f x p.
Proof.
  induction p as [p IH|p IH|]; intros x; cbn [iter_pos Pos.iter]; [|rewrite !IH; reflexivity|reflexivity].
  rewrite !IH. rewrite <- !Pos.iter_swap. reflexivity.
Qed.
Lemma shr_1_m r : 0 <= shr_m r -> shr_m (shr_1 r) = shr_m r / 2.
Proof.
  destruct r as [m r s]. cbn [shr_m shr_1]. intros H. destruct m as [|p|p]; [reflexivity| |lia].
  destruct p as [p|p|]; cbn [shr_m]; [|rewrite Pos2Z.inj_xO, Z.mul_comm, Z.div_mul by lia; reflexivity|reflexivity].
  rewrite Pos2Z.inj_xI. replace (2 * Zpos p + 1) with (1 + Zpos p * 2) by lia. rewrite Z.div_add by lia. reflexivity.
Qed.
Lemma shr_iter r p : 0 <= shr_m r -> shr_m (iter_pos shr_1 p r) = shr_m r / 2 ^ Zpos p.
Proof.
  intros H. rewrite iter_pos_iter.
  assert (K : 0 <= shr_m (Pos.iter shr_1 r p) /\ shr_m (Pos.iter shr_1 r p) = shr_m r / 2 ^ Zpos p); [|apply K].
  induction p as [|p IH] using Pos.peano_ind.
  - cbn [Pos.iter]. rewrite shr_1_m by exact H. split; [apply Z.div_pos; lia|reflexivity].
  - rewrite Pos.iter_succ. destruct IH as [I1 I2]. rewrite shr_1_m by exact I1. split; [apply Z.div_pos; lia|].
    rewrite I2, Pos2Z.inj_succ, Z.pow_succ_r, Z.div_div by lia. f_equal. lia.
Qed.
Lemma shr_exact m e n : 0 <= m -> 0 <= n -> forall l,
  shr_m (fst (shr (shr_record_of_loc m l) e n)) = m / 2 ^ n /\ snd (shr (shr_record_of_loc m l) e n) = e + n.
Proof.
  intros Hm Hn l. assert (E : shr_m (shr_record_of_loc m l) = m) by (destruct l as [|[]]; reflexivity).
  destruct n as [|p|p]; [|cbn [shr fst snd]; rewrite shr_iter by lia; rewrite E; auto|lia].
  cbn [shr fst snd]. rewrite E. change (2 ^ 0) with 1. rewrite Z.div_1_r. lia.
Qed.

Section Format.
  Variables prec emax : Z.
  Hypothesis Hprec : 1 < prec.

  Lemma valid_round_aux s m e : e <= fexp prec emax (Zpos (digits2_pos m) + e) ->
    valid_binary prec emax (binary_round_aux prec emax s (Zpos m) e loc_Exact) = true.
  Proof.
    intros He. unfold binary_round_aux. unfold shr_fexp at 1. cbn [Zdigits2].
    set (d := Zpos (digits2_pos m)) in *. set (n := fexp prec emax (d + e) - e).
    destruct (shr_exact (Zpos m) e n ltac:(lia) ltac:(lia) loc_Exact) as [S1 S2].
    destruct (shr (shr_record_of_loc (Zpos m) loc_Exact) e n) as [r1 e1]. cbn [fst snd] in S1, S2.
    pose proof (digits_bounds m) as [D1 D2]. fold d in D1, D2.
    assert (Hd : 1 <= d) by (unfold d; lia).
    assert (Hmax : fexp prec emax (d + e) = Z.max (d + e - prec) (emin prec emax)) by reflexivity.
    (* the shifted mantissa *)
    set (m1 := shr_m r1) in *.
    assert (B1 : 0 <= m1 < 2 ^ prec).
    { rewrite S1. split; [apply Z.div_pos; lia|]. apply Z.div_lt_upper_bound; [lia|]. rewrite <- Z.pow_add_r by lia.
      apply (Z.lt_le_trans _ (2 ^ d)); [lia|apply Z.pow_le_mono_r; lia]. }
    assert (B2 : e1 = emin prec emax \/ (emin prec emax < e1 /\ 2 ^ (prec - 1) <= m1)).
    { destruct (Z.eq_dec e1 (emin prec emax)) as [|N]; [left; assumption|right]. split; [lia|].
      rewrite S1. apply Z.div_le_lower_bound; [lia|]. rewrite <- Z.pow_add_r by lia.
      apply (Z.le_trans _ (2 ^ (d - 1))); [apply Z.pow_le_mono_r; lia|lia]. }
    assert (B3 : emin prec emax <= e1) by lia.
    clear S1 S2 He Hmax D1 D2. clearbody n d. clear d Hd n. 
    set (mr := round_nearest_even m1 (loc_of_shr_record r1)).
    assert (R : mr = m1 \/ mr = m1 + 1).
    { unfold mr, round_nearest_even. destruct (loc_of_shr_record r1) as [|[]]; try (left; reflexivity); [destruct (Z.even m1)|]; auto. }
    clearbody mr m1. clear r1.
    unfold shr_fexp. set (n := fexp prec emax (Zdigits2 mr + e1) - e1).
    destruct (Z.eq_dec mr 0) as [->|N0].
    { cbn [shr_record_of_loc].
      assert (Z0 : forall q, shr_m (fst (shr (shr_record_of_loc 0 loc_Exact) e1 q)) = 0).
      { intros q. destruct q as [|q|q]; try reflexivity. cbn [shr fst]. rewrite shr_iter by (cbn; lia). apply Z.div_0_l. lia. }
      specialize (Z0 n). cbn [shr_record_of_loc] in Z0. destruct (shr _ e1 n) as [r2 e2]. cbn [fst] in Z0. rewrite Z0. reflexivity. }
    destruct mr as [|p|p]; [lia| |lia]. cbn [Zdigits2] in n.
    assert (Hn : (n = 0 /\ fexp prec emax (Zpos (digits2_pos p) + e1) = e1) \/ (n = 1 /\ Zpos p = 2 ^ prec)).
    { destruct (Z.eq_dec (Zpos p) (2 ^ prec)) as [E|NE].
      - right. split; [|exact E]. assert (Zpos (digits2_pos p) = prec + 1).
        { apply Z.le_antisymm; [apply digits_le; [lia|]; rewrite E, Z.pow_add_r by lia; lia|apply digits_ge; [lia|rewrite E; lia]]. }
        unfold n, fexp. lia.
      - left. assert (Hp : Zpos p < 2 ^ prec) by lia. pose proof (digits_le p prec ltac:(lia) Hp).
        assert (fexp prec emax (Zpos (digits2_pos p) + e1) = e1); [|unfold n; lia]. unfold fexp.
        destruct B2 as [->|[B2 B4]]; [lia|].
        pose proof (digits_ge p (prec - 1) ltac:(lia) ltac:(lia)). lia. }
    destruct (shr_exact (Zpos p) e1 n ltac:(lia) ltac:(lia) loc_Exact) as [T1 T2].
    destruct (shr (shr_record_of_loc (Zpos p) loc_Exact) e1 n) as [r2 e2]. cbn [fst snd] in T1, T2.
    destruct (shr_m r2) as [|q|q]; [reflexivity| |reflexivity].
    destruct (Z.leb_spec e2 (emax - prec)) as [L|]; [|reflexivity].
    cbn [valid_binary]. unfold bounded, canonical_mantissa. apply andb_true_intro. split; [|lia].
    apply Zeq_is_eq_bool. destruct Hn as [[-> F]|[-> E]].
    - change (2 ^ 0) with 1 in T1. rewrite Z.div_1_r in T1. injection T1 as ->. rewrite T2, Z.add_0_r. exact F.
    - rewrite E in T1. replace prec with (prec - 1 + 1) in T1 by lia. rewrite Z.pow_add_r, Z.div_mul in T1 by lia.
      assert (Zpos (digits2_pos q) = prec).
      { apply Z.le_antisymm; [apply digits_le; [lia|]; rewrite T1; apply Z.pow_lt_mono_r; lia|].
        pose proof (digits_ge q (prec - 1) ltac:(lia) ltac:(lia)). lia. }
      unfold fexp. lia.
  Qed.

  Lemma shl_digits d m : digits2_pos (shift_pos d m) = (digits2_pos m + d)%positive.
  Proof.
    unfold shift_pos. induction d as [|d IH] using Pos.peano_ind.
    - cbn. lia.
    - rewrite Pos.iter_succ. cbn [digits2_pos]. rewrite IH. lia.
  Qed.
  Lemma valid_normalize z e szero : valid_binary prec emax (binary_normalize prec emax z e szero) = true.
  Proof.
    assert (K : forall s m, valid_binary prec emax (binary_round prec emax s m e) = true).
    { intros s m. unfold binary_round, shl_align.
      destruct (fexp prec emax (Zpos (digits2_pos m) + e) - e) as [|p|p] eqn:E; apply valid_round_aux; try lia.
      rewrite shl_digits, Pos2Z.inj_add. replace (Zpos (digits2_pos m) + Zpos p + fexp prec emax (Zpos (digits2_pos m) + e)) with (Zpos (digits2_pos m) + e) by lia. lia. }
    destruct z; cbn [binary_normalize]; [reflexivity|apply K|apply K].
  Qed.

  Variable width : Z.
  Hypothesis Hwidth : width = prec + Z.log2 emax + 1.
  Hypothesis Hemax : emax = 2 ^ Z.log2 emax.
  Hypothesis Hbig : 2 < emax.

  Lemma expo_width : 2 ^ (width - prec) = 2 * emax.
  Proof. rewrite Hwidth. replace (prec + Z.log2 emax + 1 - prec) with (Z.succ (Z.log2 emax)) by lia. rewrite Z.pow_succ_r by apply Z.log2_nonneg. rewrite <- Hemax. reflexivity. Qed.

  Lemma unpack s E F : 0 <= E < 2 ^ (width - prec) -> 0 <= F < 2 ^ (prec - 1) ->
    sign_of width (pack prec width s E F) = s /\ exponent_of prec width (pack prec width s E F) = E /\ fraction_of prec (pack prec width s E F) = F /\
    0 <= pack prec width s E F < 2 ^ width.
  Proof.
    intros HE HF. assert (Hl := Z.log2_nonneg emax).
    assert (W : 2 ^ (width - 1) = 2 ^ (width - prec) * 2 ^ (prec - 1)) by (rewrite <- Z.pow_add_r by lia; f_equal; lia).
    assert (W2 : 2 ^ width = 2 * 2 ^ (width - 1)) by (rewrite <- Z.pow_succ_r by lia; f_equal; lia).
    set (P := 2 ^ (prec - 1)) in *. assert (0 < P) by (apply Z.pow_pos_nonneg; lia).
    set (Q := 2 ^ (width - prec)) in *.
    assert (Lo : 0 <= E * P + F < Q * P) by nia.
    unfold sign_of, exponent_of, fraction_of, pack. fold P. fold Q.
    repeat split.
    - rewrite Z.testbit_odd, Z.shiftr_div_pow2 by lia. rewrite W. destruct s.
      + replace (Q * P + E * P + F) with (E * P + F + 1 * (Q * P)) by ring. rewrite Z.div_add by lia. rewrite Z.div_small by lia. reflexivity.
      + rewrite Z.div_small by lia. reflexivity.
    - replace ((if s then 2 ^ (width - 1) else 0) + E * P + F) with (F + (E + (if s then Q else 0)) * P) by (rewrite W; destruct s; ring).
      rewrite Z.div_add by lia. rewrite (Z.div_small F) by lia. rewrite Z.add_0_l.
      replace (E + (if s then Q else 0)) with (E + (if s then 1 else 0) * Q) by (destruct s; ring). rewrite Z_mod_plus_full. apply Z.mod_small. lia.
    - replace ((if s then 2 ^ (width - 1) else 0) + E * P + F) with (F + (E + (if s then Q else 0)) * P) by (rewrite W; destruct s; ring).
      rewrite Z_mod_plus_full. apply Z.mod_small. lia.
    - destruct s; nia.
    - rewrite W2, W. destruct s; nia.
  Qed.

  Lemma bits_decode nan f : valid_binary prec emax f = true -> f <> S754_nan ->
    ieee prec emax width (float_bits prec emax width nan f) = f /\ 0 <= float_bits prec emax width nan f < 2 ^ width.
  Proof.
    intros V N. pose proof expo_width as EW. assert (P0 : 0 < 2 ^ (prec - 1)) by (apply Z.pow_pos_nonneg; lia).
    destruct f as [s|s| |s m e]; [| |contradiction|]; cbn [float_bits].
    - destruct (unpack s 0 0 ltac:(lia) ltac:(lia)) as (U1 & U2 & U3 & U4). split; [|exact U4]. unfold ieee. rewrite U1, U2, U3.
      destruct (Z.eqb_spec 0 (2 ^ (width - prec) - 1)); [lia|]. reflexivity.
    - destruct (unpack s (2 ^ (width - prec) - 1) 0 ltac:(lia) ltac:(lia)) as (U1 & U2 & U3 & U4). split; [|exact U4]. unfold ieee. rewrite U1, U2, U3.
      rewrite Z.eqb_refl. reflexivity.
    - cbn [valid_binary] in V. unfold bounded, canonical_mantissa in V. apply andb_true_iff in V. destruct V as [V1 V2]. apply Zeq_bool_eq in V1.
      unfold fexp in V1. pose proof (digits_bounds m) as [D1 D2].
      destruct (Z.ltb_spec (Zpos m) (2 ^ (prec - 1))) as [L|L].
      + destruct (unpack s 0 (Zpos m) ltac:(lia) ltac:(lia)) as (U1 & U2 & U3 & U4). split; [|exact U4]. unfold ieee. rewrite U1, U2, U3.
        destruct (Z.eqb_spec 0 (2 ^ (width - prec) - 1)); [lia|]. cbn [Z.eqb]. f_equal.
        pose proof (digits_le m (prec - 1) ltac:(lia) L). unfold emin in V1. lia.
      + pose proof (digits_ge m (prec - 1) ltac:(lia) L) as G.
        assert (Hd : Zpos (digits2_pos m) <= prec) by lia.
        assert (Hm : Zpos m < 2 ^ prec) by (apply (Z.lt_le_trans _ (2 ^ Zpos (digits2_pos m))); [lia|apply Z.pow_le_mono_r; lia]).
        assert (HP : 2 ^ prec = 2 * 2 ^ (prec - 1)) by (rewrite <- Z.pow_succ_r by lia; f_equal; lia).
        assert (HE : 1 <= e - emin prec emax + 1 <= 2 ^ (width - prec) - 2) by (unfold emin in *; lia).
        destruct (unpack s (e - emin prec emax + 1) (Zpos m - 2 ^ (prec - 1)) ltac:(lia) ltac:(lia)) as (U1 & U2 & U3 & U4).
        split; [|exact U4]. unfold ieee. rewrite U1, U2, U3.
        destruct (Z.eqb_spec (e - emin prec emax + 1) (2 ^ (width - prec) - 1)); [lia|].
        destruct (Z.eqb_spec (e - emin prec emax + 1) 0); [lia|].
        replace (Zpos m - 2 ^ (prec - 1) + 2 ^ (prec - 1)) with (Zpos m) by lia. f_equal. unfold emin. lia.
  Qed.
End Format.

Lemma ieee_mod prec emax width b k : 1 < prec -> prec < width -> ieee prec emax width (b + k * 2 ^ width) = ieee prec emax width b.
Proof.
  intros Hp Hw.
  assert (E1 : sign_of width (b + k * 2 ^ width) = sign_of width b).
  { unfold sign_of. rewrite <- (Z.mod_pow2_bits_low _ width) by lia. rewrite Z_mod_plus_full, Z.mod_pow2_bits_low by lia. reflexivity. }
  assert (W : 2 ^ width = 2 ^ (width - prec + 1) * 2 ^ (prec - 1)) by (rewrite <- Z.pow_add_r by lia; f_equal; lia).
  assert (W' : 2 ^ (width - prec + 1) = 2 * 2 ^ (width - prec)) by (rewrite <- Z.pow_succ_r by lia; f_equal; lia).
  assert (0 < 2 ^ (prec - 1)) by (apply Z.pow_pos_nonneg; lia).
  assert (E2 : exponent_of prec width (b + k * 2 ^ width) = exponent_of prec width b).
  { unfold exponent_of. rewrite W, Z.mul_assoc, Z.div_add by lia. rewrite W'. replace (k * (2 * 2 ^ (width - prec))) with (k * 2 * 2 ^ (width - prec)) by ring. apply Z_mod_plus_full. }
  assert (E3 : fraction_of prec (b + k * 2 ^ width) = fraction_of prec b).
  { unfold fraction_of. rewrite W, Z.mul_assoc. apply Z_mod_plus_full. }
  unfold ieee. rewrite E1, E2, E3. reflexivity.
Qed.

Lemma single_bits nan f : valid_binary 24 128 f = true -> f <> S754_nan -> single (get_float_bits nan f) = f.
Proof.
  intros V N. destruct (bits_decode 24 128 ltac:(lia) 32 eq_refl eq_refl ltac:(lia) nan f V N) as [E R]. unfold single, get_float_bits.
  rewrite <- E at 2. pose proof (s32_mod (float_bits 24 128 32 nan f)) as M.
  rewrite (Z.mod_small (float_bits 24 128 32 nan f)) in M by exact R.
  pose proof (Z.div_mod (s32 (float_bits 24 128 32 nan f)) 4294967296 ltac:(lia)) as D. rewrite M in D.
  rewrite D, Z.add_comm, (Z.mul_comm 4294967296). apply (ieee_mod 24 128 32); lia.
Qed.
Lemma double_bits nan f : valid_binary 53 1024 f = true -> f <> S754_nan -> double (get_double_bits nan f) = f.
Proof.
  intros V N. destruct (bits_decode 53 1024 ltac:(lia) 64 eq_refl eq_refl ltac:(lia) nan f V N) as [E R]. unfold double, get_double_bits.
  rewrite <- E at 2. pose proof (s64_mod (float_bits 53 1024 64 nan f)) as M.
  rewrite (Z.mod_small (float_bits 53 1024 64 nan f)) in M by exact R.
  pose proof (Z.div_mod (s64 (float_bits 53 1024 64 nan f)) 18446744073709551616 ltac:(lia)) as D. rewrite M in D.
  rewrite D, Z.add_comm, (Z.mul_comm 18446744073709551616). apply (ieee_mod 53 1024 64); lia.
Qed.
Lemma single_valid f : valid_binary 24 128 (to_single f) = true.
Proof. destruct f as [s|s| |s m e]; try reflexivity. apply valid_normalize. lia. Qed.
Lemma int_single_valid z : valid_binary 24 128 (int_to_single z) = true.
Proof. apply valid_normalize. lia. Qed.

Lemma shr_fexp_pos prec emax m e l : 0 <= m -> 0 <= shr_m (fst (shr_fexp prec emax m e l)).
Proof.
  intros H. unfold shr_fexp. assert (E : shr_m (shr_record_of_loc m l) = m) by (destruct l as [|[]]; reflexivity).
  destruct (_ - e) as [|p|p]; cbn [shr fst]; [lia| |lia]. rewrite shr_iter by lia. apply Z.div_pos; lia.
Qed.
Lemma normalize_number prec emax z e s : binary_normalize prec emax z e s <> S754_nan.
Proof.
  assert (K : forall sx m ex, binary_round_aux prec emax sx (Zpos m) ex loc_Exact <> S754_nan).
  { intros sx m ex. unfold binary_round_aux. pose proof (shr_fexp_pos prec emax (Zpos m) ex loc_Exact ltac:(lia)) as P1.
    destruct (shr_fexp prec emax (Zpos m) ex loc_Exact) as [r1 e1]. cbn [fst] in P1.
    assert (P2 : 0 <= round_nearest_even (shr_m r1) (loc_of_shr_record r1)).
    { unfold round_nearest_even. destruct (loc_of_shr_record r1) as [|[]]; try lia. destruct (Z.even _); lia. }
    pose proof (shr_fexp_pos prec emax _ e1 loc_Exact P2) as P3.
    destruct (shr_fexp prec emax (round_nearest_even _ _) e1 loc_Exact) as [r2 e2]. cbn [fst] in P3.
    destruct (shr_m r2); [discriminate|destruct (_ <=? _); discriminate|lia]. }
  assert (K2 : forall sx m ex, binary_round prec emax sx m ex <> S754_nan).
  { intros sx m ex. unfold binary_round. destruct (shl_align _ _ _). apply K. }
  destruct z; cbn [binary_normalize]; [discriminate|apply K2|apply K2].
Qed.
Lemma single_number f : f <> S754_nan -> to_single f <> S754_nan.
Proof. destruct f as [s|s| |s m e]; intros N; try discriminate; [contradiction|]. apply normalize_number. Qed.
