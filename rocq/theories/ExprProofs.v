Require Import ZArith Bool List String Ascii Lia ZifyBool.
Require Import Floats.SpecFloat.
Require Import Verif.Ints Verif.IntsLemmas Verif.ExprModel Verif.ExprFuncModel Verif.ExprSpec.
Import ListNotations.
Local Open Scope Z_scope.

(** ** Induction over expression trees *)

Section ExprInd.
  Variable P : expr -> Prop.
  Hypothesis Hinv : P EInvalid.
  Hypothesis Hint : forall z, P (EInt z).
  Hypothesis Hfloat : forall f, P (EFloat f).
  Hypothesis Hid : forall n f s, P (EIdent n f s).
  Hypothesis Hstr : forall s, P (EStr s).
  Hypothesis Hpos : P EPos.
  Hypothesis Hun : forall op a, P a -> P (EUn op a).
  Hypothesis Hbin : forall op a b, P a -> P b -> P (EBin op a b).
  Hypothesis Hcond : forall c a b, P c -> P a -> P b -> P (ECond c a b).
  Hypothesis Hts : forall a, P a -> P (EToString a).
  Hypothesis Hcall : forall n args, Forall P args -> P (ECall n args).

  Fixpoint expr_ind' (e : expr) : P e :=
    match e with
    | EInvalid => Hinv
    | EInt z => Hint z
    | EFloat f => Hfloat f
    | EIdent n f s => Hid n f s
    | EStr s => Hstr s
    | EPos => Hpos
    | EUn op a => Hun op a (expr_ind' a)
    | EBin op a b => Hbin op a b (expr_ind' a) (expr_ind' b)
    | ECond c a b => Hcond c a b (expr_ind' c) (expr_ind' a) (expr_ind' b)
    | EToString a => Hts a (expr_ind' a)
    | ECall n args =>
        Hcall n args ((fix go (l : list expr) : Forall P l :=
          match l with
          | [] => Forall_nil _
          | a :: t => Forall_cons _ (expr_ind' a) (go t)
          end) args)
    end.
End ExprInd.

(** ** Integer operators *)

Lemma in_int64_spec : forall z, in_int64 z = true <-> is_int64 z.
Proof. intros z. unfold in_int64, is_int64, int64_min, int64_max. lia. Qed.

Lemma s64_represents : forall x, represents64 (s64 x) x.
Proof.
  intros x. unfold represents64, s64, is_int64, int64_min, int64_max.
  pose proof (Z.mod_pos_bound x 18446744073709551616 ltac:(lia)).
  pose proof (Z.div_mod x 18446744073709551616 ltac:(lia)).
  set (q := x / 18446744073709551616) in *. set (r := x mod 18446744073709551616) in *.
  destruct (r <? 9223372036854775808) eqn:E; split; try lia.
  - exists (- q). lia.
  - exists (- q - 1). lia.
Qed.

Lemma represents64_mod : forall r x y k,
  represents64 r x -> x = y + k * 18446744073709551616 -> represents64 r y.
Proof. intros r x y k [H [j Hj]] E. split; auto. exists (j + k). lia. Qed.

Lemma u64_unsigned : forall a, is_int64 a -> u64 a = unsigned64 a.
Proof.
  intros a H. unfold u64, unsigned64, is_int64, int64_min, int64_max in *.
  destruct (a <? 0) eqn:E.
  - replace a with (a + 18446744073709551616 + (-1) * 18446744073709551616) at 1 by lia.
    rewrite Z_mod_plus_full. apply Z.mod_small. lia.
  - apply Z.mod_small. lia.
Qed.

Lemma is01_bool : forall (P : Prop) b, (b = true <-> P) -> is01 P (bool_int b).
Proof.
  intros P b H. unfold is01, bool_int. destruct b.
  - left. split; auto. apply H; auto.
  - right. split; auto. intro HP. apply H in HP. discriminate.
Qed.

Lemma quot_rem_c : forall a b, b <> 0 -> c_division a b (Z.quot a b) (Z.rem a b).
Proof.
  intros a b H. unfold c_division. split; [|split].
  - apply Z.quot_rem'.
  - apply Z.rem_bound_abs; auto.
  - destruct (Z.eq_dec (Z.rem a b) 0) as [E|E]; [left; auto|right].
    pose proof (Z.rem_sign_nz a b H E) as S. split; intros L.
    + apply Z.sgn_pos_iff. rewrite <- S. apply Z.sgn_pos_iff; auto.
    + apply Z.sgn_pos_iff. rewrite S. apply Z.sgn_pos_iff; auto.
Qed.

Lemma quot_int64 : forall a b, is_int64 a -> is_int64 b -> b <> 0 ->
  ~ (a = int64_min /\ b = -1) -> is_int64 (Z.quot a b).
Proof.
  intros a b Ha Hb Hz Hn. destruct (quot_rem_c a b Hz) as (E & L & S).
  unfold is_int64, int64_min, int64_max in *.
  set (q := Z.quot a b) in *. set (r := Z.rem a b) in *.
  assert (Z.abs q <= Z.abs a).
  { unfold q. rewrite <- Z.quot_abs by auto.
    destruct (Z.eq_dec (Z.abs b) 1) as [B|B].
    - rewrite B, Z.quot_1_r. lia.
    - apply Z.quot_le_upper_bound; nia. }
  split; [lia|].
  destruct (Z.eq_dec a (-9223372036854775808)); [|lia].
  destruct (Z_le_gt_dec q 9223372036854775807); [lia|exfalso].
  assert (Z.abs b = 1 \/ 2 <= Z.abs b) as [B|B] by lia.
  - assert (b = 1 \/ b = -1) as [->| ->] by lia; [|apply Hn; lia].
    unfold q in *. rewrite Z.quot_1_r in *. lia.
  - assert (Z.abs (b * q) <= Z.abs a) by (unfold q; rewrite Z.abs_mul;
      pose proof (Z.mul_quot_le (Z.abs a) (Z.abs b) ltac:(lia) ltac:(lia));
      rewrite <- (Z.quot_abs a b) by auto; lia).
    rewrite Z.abs_mul in *. nia.
Qed.

Lemma rem_int64 : forall a b, is_int64 a -> b <> 0 -> is_int64 (Z.rem a b).
Proof.
  intros a b Ha Hz. destruct (quot_rem_c a b Hz) as (E & L & S).
  unfold is_int64, int64_min, int64_max in *.
  assert (Z.abs (Z.rem a b) <= Z.abs a).
  { rewrite <- Z.rem_abs by auto. apply Z.rem_le; lia. }
  pose proof (Z.rem_sign_mul a b Hz). nia.
Qed.

Lemma int64_bits : forall a, is_int64 a <-> forall i, 63 <= i -> Z.testbit a i = Z.testbit a 63.
Proof.
  intros a. unfold is_int64, int64_min, int64_max. split.
  - intros H i Hi.
    rewrite !Z.testbit_odd, !Z.shiftr_div_pow2 by lia.
    assert (a / 2 ^ 63 = a / 2 ^ i).
    { destruct (Z_lt_le_dec a 0).
      - rewrite <- (Z.opp_involutive a).
        transitivity (-1).
        + symmetry. apply Z.div_unique with (r := 2 ^ 63 + a); lia.
        + assert (2 ^ 63 <= 2 ^ i) by (apply Z.pow_le_mono_r; lia).
          apply Z.div_unique with (r := 2 ^ i + a); lia.
      - rewrite Z.div_small by lia.
        assert (2 ^ 63 <= 2 ^ i) by (apply Z.pow_le_mono_r; lia).
        rewrite Z.div_small; lia. }
    congruence.
  - intros H. destruct (Z.testbit a 63) eqn:E.
    + assert (a < 0).
      { destruct (Z_lt_le_dec a 0); auto. exfalso.
        assert (Z.testbit a (Z.max 63 (Z.log2 a + 1)) = true) by (apply H; lia).
        rewrite Z.bits_above_log2 in H0; try lia; discriminate. }
      assert (a = - 2 ^ 63 + a mod 2 ^ 63).
      { pose proof (Z.div_mod a (2 ^ 63) ltac:(lia)).
        assert (a / 2 ^ 63 = -1); [|lia].
        rewrite <- Z.shiftr_div_pow2 by lia. apply Z.bits_inj'. intros n Hn.
        rewrite Z.shiftr_spec, Z.bits_m1 by lia. apply H. lia. }
      pose proof (Z.mod_pos_bound a (2 ^ 63) ltac:(lia)). lia.
    + assert (a / 2 ^ 63 = 0).
      { rewrite <- Z.shiftr_div_pow2 by lia. apply Z.bits_inj'. intros n Hn.
        rewrite Z.shiftr_spec, Z.bits_0 by lia. apply H. lia. }
      pose proof (Z.div_mod a (2 ^ 63) ltac:(lia)).
      pose proof (Z.mod_pos_bound a (2 ^ 63) ltac:(lia)). lia.
Qed.

Lemma int64_bitop : forall f a b r,
  (forall i, 0 <= i -> Z.testbit r i = f (Z.testbit a i) (Z.testbit b i)) ->
  is_int64 a -> is_int64 b -> is_int64 r.
Proof.
  intros f a b r H Ha Hb. apply int64_bits. intros i Hi.
  rewrite !H by lia.
  rewrite (proj1 (int64_bits a) Ha i), (proj1 (int64_bits b) Hb i) by lia. reflexivity.
Qed.

Lemma bool_int_int64 : forall b, is_int64 (bool_int b).
Proof. intros []; unfold is_int64, int64_min, int64_max; cbn; lia. Qed.

Lemma s64_int64 : forall x, is_int64 (s64 x).
Proof. intros x. apply (s64_represents x). Qed.

Lemma apply_bin_int : forall h op a b, is_int64 a -> is_int64 b ->
  (int_undefined op a b /\ apply_bin h op (VInt a) (VInt b) = OUb) \/
  (~ int_undefined op a b /\
   exists r ms, apply_bin h op (VInt a) (VInt b) = OVal (VInt r) ms /\
     is_int64 r /\ int_meaning op a b r /\
     ((int_warned op a b /\ exists m, ms = [m] /\ is_warning m) \/
      (~ int_warned op a b /\ ms = []))).
Proof.
  intros h op a b Ha Hb.
  assert (Hov : forall z, (~ is_int64 z /\ int_or_ub z = OUb) \/
                          (is_int64 z /\ int_or_ub z = OVal (VInt z) [])).
  { intros z. unfold int_or_ub, ub_unless. destruct (in_int64 z) eqn:E.
    - right. split; auto. apply in_int64_spec; auto.
    - left. split; auto. intro Hc. apply in_int64_spec in Hc. congruence. }
  assert (Hcmp : forall (P : Prop) t, (t = true <-> P) ->
     exists r ms, @oret value (VInt (bool_int t)) = OVal (VInt r) ms /\ is_int64 r /\ is01 P r /\
       ((False /\ exists m, ms = [m] /\ is_warning m) \/ (~ False /\ ms = []))).
  { intros P t Hp. exists (bool_int t), []. split; [reflexivity|].
    split; [apply bool_int_int64|]. split; [apply is01_bool; auto|right; auto]. }
  destruct op; cbn [apply_bin int_undefined int_meaning int_warned];
    cbn [v_add v_sub v_mul v_lt v_le v_gt v_ge v_eq v_ne v_bit v_logic v_div v_mod v_shl v_shr];
    try (right; split; [tauto|]; apply Hcmp; unfold v_gt, v_ge, v_ne, v_lt, v_le, v_eq, truthy_int; lia).
  - destruct (Hov (a + b)) as [[H1 H2]|[H1 H2]]; rewrite H2; [left; auto|right; split; [tauto|]].
    exists (a + b), []. repeat split; try apply H1; auto.
  - destruct (Hov (a - b)) as [[H1 H2]|[H1 H2]]; rewrite H2; [left; auto|right; split; [tauto|]].
    exists (a - b), []. repeat split; try apply H1; auto.
  - destruct (Hov (a * b)) as [[H1 H2]|[H1 H2]]; rewrite H2; [left; auto|right; split; [tauto|]].
    exists (a * b), []. repeat split; try apply H1; auto.
  - right. split; [tauto|].
    destruct ((a =? int64_min) && (b =? -1)) eqn:E1; [|destruct (b =? 0) eqn:E2].
    + replace (b =? 0) with false by lia.
      exists int64_min, [msg_div_overflow]. split; [reflexivity|].
      split; [unfold is_int64, int64_min, int64_max; lia|]. split; [reflexivity|].
      left. split; [lia|]. eexists; split; [reflexivity|exact I].
    + exists (-1), [msg_div_zero]. split; [reflexivity|].
      split; [unfold is_int64, int64_min, int64_max; lia|]. split; [reflexivity|].
      left. split; [lia|]. eexists; split; [reflexivity|exact I].
    + exists (Z.quot a b), []. split; [reflexivity|].
      split; [apply quot_int64; auto; lia|].
      split; [exists (Z.rem a b); apply quot_rem_c; lia|]. right. split; [lia|reflexivity].
  - right. split; [tauto|].
    destruct ((a =? int64_min) && (b =? -1)) eqn:E1; [|destruct (b =? 0) eqn:E2].
    + replace (b =? 0) with false by lia.
      exists 0, [msg_div_overflow]. split; [reflexivity|].
      split; [unfold is_int64, int64_min, int64_max; lia|]. split; [reflexivity|].
      left. split; [lia|]. eexists; split; [reflexivity|exact I].
    + exists a, [msg_div_zero]. split; [reflexivity|].
      split; [auto|]. split; [reflexivity|].
      left. split; [lia|]. eexists; split; [reflexivity|exact I].
    + exists (Z.rem a b), []. split; [reflexivity|].
      split; [apply rem_int64; auto; lia|].
      split; [exists (Z.quot a b); apply quot_rem_c; lia|]. right. split; [lia|reflexivity].
  - unfold ub_unless. destruct ((0 <=? b) && (b <? 64)) eqn:E; [right|left; split; [lia|auto]].
    split; [lia|]. exists (s64 (u64 (Z.shiftl (u64 a) b))), []. split; [reflexivity|].
    split; [apply s64_int64|]. split; [|right; auto].
    rewrite Z.shiftl_mul_pow2 by lia.
    set (p := 2 ^ b).
    pose proof (Z.div_mod (u64 a * p) 18446744073709551616 ltac:(lia)) as D1.
    pose proof (Z.div_mod a 18446744073709551616 ltac:(lia)) as D2.
    eapply represents64_mod; [apply s64_represents|].
    instantiate (1 := - ((u64 a * p) / 18446744073709551616) - (a / 18446744073709551616) * p).
    unfold u64 in *. nia.
  - unfold ub_unless. destruct ((0 <=? b) && (b <? 64)) eqn:E; [right|left; split; [lia|auto]].
    split; [lia|]. exists (s64 (Z.shiftr (u64 a) b)), []. split; [reflexivity|].
    split; [apply s64_int64|]. split; [|right; auto].
    rewrite Z.shiftr_div_pow2, u64_unsigned by (auto; lia). apply s64_represents.
  - right. split; [tauto|]. exists (Z.land a b), [].
    assert (forall i, 0 <= i -> bit (Z.land a b) i = bit a i && bit b i)
      by (intros; apply Z.land_spec).
    repeat split; auto; apply (int64_bitop andb a b); auto.
  - right. split; [tauto|]. exists (Z.lxor a b), [].
    assert (forall i, 0 <= i -> bit (Z.lxor a b) i = xorb (bit a i) (bit b i))
      by (intros; apply Z.lxor_spec).
    repeat split; auto; apply (int64_bitop xorb a b); auto.
  - right. split; [tauto|]. exists (Z.lor a b), [].
    assert (forall i, 0 <= i -> bit (Z.lor a b) i = bit a i || bit b i)
      by (intros; apply Z.lor_spec).
    repeat split; auto; apply (int64_bitop orb a b); auto.
Qed.

Lemma eval_bin_int : forall reg st op a b, is_int64 a -> is_int64 b ->
  (int_undefined op a b /\ eval reg st (EBin op (EInt a) (EInt b)) = OUb) \/
  (~ int_undefined op a b /\
   exists r ms, eval reg st (EBin op (EInt a) (EInt b)) = OVal (VInt r) ms /\
     is_int64 r /\ int_meaning op a b r /\
     ((int_warned op a b /\ exists m, ms = [m] /\ is_warning m) \/
      (~ int_warned op a b /\ ms = []))).
Proof.
  intros reg st op a b Ha Hb.
  assert (E : eval reg st (EBin op (EInt a) (EInt b)) =
              apply_bin (c_host (s_ctx st)) op (VInt a) (VInt b)).
  { cbn [eval]. unfold obind, oret. destruct (apply_bin _ _ _ _); reflexivity. }
  rewrite E. apply apply_bin_int; auto.
Qed.

Lemma eval_un_int : forall reg st op a, is_int64 a ->
  (op = UNeg /\ a = int64_min /\ eval reg st (EUn op (EInt a)) = OUb) \/
  (~ (op = UNeg /\ a = int64_min) /\
   exists r, eval reg st (EUn op (EInt a)) = OVal (VInt r) [] /\ is_int64 r /\ unop_meaning op a r).
Proof.
  intros reg st op a Ha. cbn [eval]. unfold obind, oret.
  destruct op; cbn [apply_un v_sub v_not v_bitnot].
  - unfold int_or_ub, ub_unless. destruct (in_int64 (0 - a)) eqn:E.
    + right. apply in_int64_spec in E. split.
      * unfold is_int64, int64_min, int64_max in *. lia.
      * exists (0 - a). repeat split; try apply E; cbn; lia.
    + left. split; auto. split; auto.
      destruct (Z.eq_dec a int64_min); auto. exfalso.
      assert (~ is_int64 (0 - a)) by (intro X; apply in_int64_spec in X; congruence).
      unfold is_int64, int64_min, int64_max in *. lia.
  - right. split; [intros [X _]; discriminate|].
    exists (bool_int (a =? 0)). split; [reflexivity|]. split; [apply bool_int_int64|].
    apply is01_bool. lia.
  - right. split; [intros [X _]; discriminate|].
    exists (Z.lnot a). split; [reflexivity|].
    assert (B : forall i, 0 <= i -> bit (Z.lnot a) i = negb (bit a i))
      by (intros; apply Z.lnot_spec; auto).
    split; auto. apply (int64_bitop (fun x _ => negb x) a a); auto.
Qed.
