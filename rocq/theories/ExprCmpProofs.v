Require Import ZArith Bool List String Ascii Lia ZifyBool.
Require Import Floats.SpecFloat.
Require Import Verif.Ints Verif.IntsLemmas Verif.ExprModel Verif.ExprFuncModel Verif.ExprSpec.
Require Import Verif.ExprProofs.
Import ListNotations.
Local Open Scope Z_scope.

(** ** The order of doubles as a lexicographic order on integer triples *)

Definition fkey (f : spec_float) : Z * Z * Z :=
  match f with
  | S754_infinity true => (-2, 0, 0)
  | S754_finite true m e => (-1, - e, - Zpos m)
  | S754_zero _ => (0, 0, 0)
  | S754_finite false m e => (1, e, Zpos m)
  | S754_infinity false => (2, 0, 0)
  | S754_nan => (0, 0, 0)
  end.

Definition lexcmp (a b : Z * Z * Z) : comparison :=
  let '(a1, a2, a3) := a in
  let '(b1, b2, b3) := b in
  match a1 ?= b1 with
  | Eq => match a2 ?= b2 with Eq => a3 ?= b3 | c => c end
  | c => c
  end.

Lemma sfcompare_key : forall f g, not_nan f -> not_nan g ->
  SFcompare f g = Some (lexcmp (fkey f) (fkey g)).
Proof.
  intros f g Hf Hg. unfold not_nan in *.
  destruct f as [sf|sf| |sf mf ef]; [| |congruence|];
    (destruct g as [sg|sg| |sg mg eg]; [| |congruence|]);
    try (destruct sf); try (destruct sg); cbn; try reflexivity; f_equal.
  - rewrite Z.compare_opp, (Z.compare_antisym ef eg).
    destruct (ef ?= eg); cbn; auto.
Qed.

Definition lexlt (a b : Z * Z * Z) : Prop :=
  let '(a1, a2, a3) := a in
  let '(b1, b2, b3) := b in
  a1 < b1 \/ (a1 = b1 /\ (a2 < b2 \/ (a2 = b2 /\ a3 < b3))).

Lemma lexcmp_spec : forall a b,
  match lexcmp a b with Eq => a = b | Lt => lexlt a b | Gt => lexlt b a end.
Proof.
  intros [[a1 a2] a3] [[b1 b2] b3]. cbn.
  destruct (Z.compare_spec a1 b1); subst; cbn; auto; try lia.
  destruct (Z.compare_spec a2 b2); subst; cbn; auto; try lia.
  destruct (Z.compare_spec a3 b3); subst; cbn; auto; try lia.
Qed.

Lemma lexlt_trans : forall a b c, lexlt a b -> lexlt b c -> lexlt a c.
Proof. intros [[a1 a2] a3] [[b1 b2] b3] [[c1 c2] c3]; cbn; lia. Qed.
Lemma lexlt_irrefl : forall a, ~ lexlt a a.
Proof. intros [[a1 a2] a3]; cbn; lia. Qed.

Lemma sfltb_key : forall f g, not_nan f -> not_nan g ->
  (SFltb f g = true <-> lexlt (fkey f) (fkey g)).
Proof.
  intros f g Hf Hg. unfold SFltb. rewrite sfcompare_key by auto.
  pose proof (lexcmp_spec (fkey f) (fkey g)) as L.
  destruct (lexcmp (fkey f) (fkey g)); split; intros H; auto; try discriminate.
  - rewrite L in H. apply lexlt_irrefl in H. tauto.
  - exfalso. eapply lexlt_irrefl, lexlt_trans; eauto.
Qed.

Lemma sfeqb_key : forall f g, not_nan f -> not_nan g ->
  (SFeqb f g = true <-> fkey f = fkey g).
Proof.
  intros f g Hf Hg. unfold SFeqb. rewrite sfcompare_key by auto.
  pose proof (lexcmp_spec (fkey f) (fkey g)) as L.
  destruct (lexcmp (fkey f) (fkey g)); split; intros H; auto; try discriminate;
    rewrite H in L; apply lexlt_irrefl in L; tauto.
Qed.

Lemma sfleb_key : forall f g, not_nan f -> not_nan g ->
  (SFleb f g = true <-> ~ lexlt (fkey g) (fkey f)).
Proof.
  intros f g Hf Hg. unfold SFleb. rewrite sfcompare_key by auto.
  pose proof (lexcmp_spec (fkey f) (fkey g)) as L.
  destruct (lexcmp (fkey f) (fkey g)); split; intros H; auto; try discriminate.
  - rewrite L. apply lexlt_irrefl.
  - intro X. eapply lexlt_irrefl, lexlt_trans; eauto.
Qed.

Lemma lexlt_trich : forall a b, lexlt a b \/ a = b \/ lexlt b a.
Proof.
  intros a b. pose proof (lexcmp_spec a b). destruct (lexcmp a b); auto.
Qed.

(** ** Conversions never produce NaN *)

Lemma shr_fexp_mpos : forall m e l, 0 <= m -> 0 <= shr_m (fst (shr_fexp prec64 emax64 m e l)).
Proof.
  intros m e l H. unfold shr_fexp, shr.
  assert (G : 0 <= shr_m (shr_record_of_loc m l)) by (destruct l as [|[]]; cbn; auto).
  destruct (fexp prec64 emax64 (Zdigits2 m + e) - e); cbn [fst]; auto.
  assert (S1 : forall r, 0 <= shr_m r -> 0 <= shr_m (shr_1 r)).
  { intros [m0 r0 s0] Hm. cbn in *. destruct m0 as [|[]|]; cbn; lia. }
  revert G. generalize (shr_record_of_loc m l). induction p; cbn [iter_pos]; intros r G; auto.
Qed.

Lemma round_aux_not_nan : forall s m e l, 0 <= m -> not_nan (binary_round_aux prec64 emax64 s m e l).
Proof.
  intros s m e l H. unfold binary_round_aux.
  pose proof (shr_fexp_mpos m e l H) as P1.
  destruct (shr_fexp prec64 emax64 m e l) as [mrs e'] eqn:E1. cbn [fst] in P1.
  assert (P2 : 0 <= round_nearest_even (shr_m mrs) (loc_of_shr_record mrs)).
  { destruct mrs as [m0 [] []]; cbn in *; try lia. destruct (Z.even m0); lia. }
  pose proof (shr_fexp_mpos _ e' loc_Exact P2) as P3.
  destruct (shr_fexp prec64 emax64 (round_nearest_even (shr_m mrs) (loc_of_shr_record mrs)) e' loc_Exact)
    as [mrs2 e2]. cbn [fst] in P3.
  destruct (shr_m mrs2) eqn:E3; try lia; unfold not_nan; try discriminate.
  destruct (Zle_bool _ _); discriminate.
Qed.

Lemma round_not_nan : forall s m e, not_nan (binary_round prec64 emax64 s m e).
Proof.
  intros s m e. unfold binary_round.
  destruct (shl_align m e (fexp prec64 emax64 (Z.pos (digits2_pos m) + e))) as [mz ez].
  apply round_aux_not_nan. lia.
Qed.

Lemma int_to_double_not_nan : forall z, not_nan (int_to_double z).
Proof.
  intros z. unfold int_to_double, binary_normalize. destruct z.
  - discriminate.
  - apply round_not_nan.
  - apply round_not_nan.
Qed.

(** ** Strings *)

Lemma ascii_compare_trans : forall a b c,
  Ascii.compare a b = Lt -> Ascii.compare b c = Lt -> Ascii.compare a c = Lt.
Proof.
  unfold Ascii.compare. intros a b c H1 H2. rewrite N.compare_lt_iff in *. lia.
Qed.

Lemma string_compare_refl : forall s, String.compare s s = Eq.
Proof.
  induction s; cbn; auto. unfold Ascii.compare. rewrite N.compare_refl. auto.
Qed.

Lemma string_lt_trans : forall s t u,
  String.compare s t = Lt -> String.compare t u = Lt -> String.compare s u = Lt.
Proof.
  induction s as [|a s IH]; intros [|b t] [|c u] H1 H2; cbn in *; try discriminate; auto.
  destruct (Ascii.compare a b) eqn:E1; try discriminate.
  - apply Ascii.compare_eq_iff in E1. subst. destruct (Ascii.compare b c) eqn:E2; try discriminate; auto.
    eapply IH; eauto.
  - destruct (Ascii.compare b c) eqn:E2; try discriminate.
    + apply Ascii.compare_eq_iff in E2. subst. rewrite E1. auto.
    + rewrite (ascii_compare_trans a b c) by auto. auto.
Qed.

Lemma string_eqb_compare : forall s t, String.eqb s t = true <-> String.compare s t = Eq.
Proof.
  intros s t. rewrite String.eqb_eq. split.
  - intros ->. apply string_compare_refl.
  - apply String.compare_eq_iff.
Qed.

(** ** From evaluation to the value operators *)

Lemma eval_const : forall reg st v, eval reg st (const_expr v) = OVal v [].
Proof. intros reg st []; reflexivity. Qed.

Lemma eval_bin_const : forall reg st op a b,
  eval reg st (EBin op (const_expr a) (const_expr b)) = apply_bin (c_host (s_ctx st)) op a b.
Proof.
  intros. cbn [eval]. rewrite !eval_const. cbn [obind app].
  destruct (apply_bin (c_host (s_ctx st)) op a b); reflexivity.
Qed.

Lemma bool_int_one : forall b, @oret value (VInt (bool_int b)) = OVal (VInt 1) [] <-> b = true.
Proof. intros []; unfold oret; cbn; split; congruence. Qed.
Lemma bool_int_zero : forall b, @oret value (VInt (bool_int b)) = OVal (VInt 0) [] <-> b = false.
Proof. intros []; unfold oret; cbn; split; congruence. Qed.

Ltac cmp_red := unfold cmp_true, cmp_false; rewrite !eval_bin_const; cbn [apply_bin];
  rewrite ?bool_int_one, ?bool_int_zero.

(** Trichotomy for numbers, in terms of keys. *)
Definition fnum (a b : value) : option (spec_float * spec_float) :=
  match a, b with
  | VInt _, VInt _ => None
  | VInt x, VFloat y => Some (int_to_double x, y)
  | VFloat x, VInt y => Some (x, int_to_double y)
  | VFloat x, VFloat y => Some (x, y)
  | _, _ => None
  end.

Lemma comparable_cases : forall h a b, comparable a b ->
  exists (lt eq gt : bool),
    v_lt a b = lt /\ v_eq h a b = eq /\ v_lt b a = gt /\
    v_le a b = negb gt /\ v_le b a = negb lt /\
    ((lt = true /\ eq = false /\ gt = false) \/ (lt = false /\ eq = true /\ gt = false) \/
     (lt = false /\ eq = false /\ gt = true)).
Proof.
  intros h a b H.
  assert (F : forall f g, not_nan f -> not_nan g ->
    exists lt eq gt, SFltb f g = lt /\ SFeqb f g = eq /\ SFltb g f = gt /\
     SFleb f g = negb gt /\ SFleb g f = negb lt /\
     ((lt = true /\ eq = false /\ gt = false) \/ (lt = false /\ eq = true /\ gt = false) \/
     (lt = false /\ eq = false /\ gt = true))).
  { intros f g Hf Hg.
    pose proof (sfltb_key f g Hf Hg) as A1. pose proof (sfltb_key g f Hg Hf) as A2.
    pose proof (sfeqb_key f g Hf Hg) as A3. pose proof (sfleb_key f g Hf Hg) as A4.
    pose proof (sfleb_key g f Hg Hf) as A5.
    exists (SFltb f g), (SFeqb f g), (SFltb g f).
    assert (R : forall x, ~ lexlt x x) by apply lexlt_irrefl.
    assert (T : ~ (lexlt (fkey f) (fkey g) /\ lexlt (fkey g) (fkey f)))
      by (intros [X Y]; eapply R, lexlt_trans; eauto).
    destruct (lexlt_trich (fkey f) (fkey g)) as [L|[L|L]].
    - assert (fkey f <> fkey g) by (intro E; rewrite E in L; eapply R; eauto).
      assert (~ lexlt (fkey g) (fkey f)) by tauto.
      destruct (SFltb f g), (SFeqb f g), (SFltb g f), (SFleb f g), (SFleb g f); intuition congruence.
    - rewrite L in *. pose proof (R (fkey g)).
      destruct (SFltb f g), (SFeqb f g), (SFltb g f), (SFleb f g), (SFleb g f); intuition congruence.
    - assert (fkey f <> fkey g) by (intro E; rewrite E in L; eapply R; eauto).
      assert (~ lexlt (fkey f) (fkey g)) by tauto.
      destruct (SFltb f g), (SFeqb f g), (SFltb g f), (SFleb f g), (SFleb g f); intuition congruence. }
  assert (Sym : forall f g, SFeqb f g = SFeqb g f).
  { intros f g. unfold SFeqb.
    destruct f as [| | |s1 m1 e1], g as [| | |s2 m2 e2]; try destruct s; try destruct s0;
      try destruct s1; try destruct s2; cbn; try reflexivity.
    all: rewrite (Z.compare_antisym e1 e2); destruct (e1 ?= e2); cbn; try reflexivity.
    all: change (Pos.compare_cont Eq m1 m2) with (Pos.compare m1 m2);
         change (Pos.compare_cont Eq m2 m1) with (Pos.compare m2 m1);
         rewrite (Pos.compare_antisym m1 m2); destruct (Pos.compare m1 m2); reflexivity. }
  pose proof int_to_double_not_nan as NN.
  destruct H as [[Ha Hb]|(s & t & -> & ->)].
  - destruct a as [|x|x|]; cbn in Ha; try tauto; destruct b as [|y|y|]; cbn in Hb; try tauto;
      cbn [v_lt v_le v_eq]; auto.
    exists (x <? y), (x =? y), (y <? x). repeat split; lia.
  - cbn [v_lt v_le v_eq].
    exists (String.ltb s t), (String.eqb s t), (String.ltb t s).
    unfold String.ltb, String.leb.
    pose proof (string_eqb_compare s t) as E. pose proof (String.compare_antisym s t) as A.
    rewrite A in *. destruct (String.compare t s); cbn in *; destruct (String.eqb s t); intuition congruence.
Qed.

Lemma comparisons_coherent : forall reg st a b, comparable a b ->
  ((cmp_true reg st BLt a b /\ cmp_false reg st BEq a b /\ cmp_false reg st BGt a b) \/
   (cmp_false reg st BLt a b /\ cmp_true reg st BEq a b /\ cmp_false reg st BGt a b) \/
   (cmp_false reg st BLt a b /\ cmp_false reg st BEq a b /\ cmp_true reg st BGt a b)) /\
  (cmp_true reg st BLe a b <-> cmp_false reg st BGt a b) /\
  (cmp_false reg st BLe a b <-> cmp_true reg st BGt a b) /\
  (cmp_true reg st BGe a b <-> cmp_false reg st BLt a b) /\
  (cmp_false reg st BGe a b <-> cmp_true reg st BLt a b) /\
  (cmp_true reg st BNe a b <-> cmp_false reg st BEq a b) /\
  (cmp_false reg st BNe a b <-> cmp_true reg st BEq a b).
Proof.
  intros reg st a b H.
  destruct (comparable_cases (c_host (s_ctx st)) a b H) as (lt & eq & gt & A & B & C & D & E & F).
  cmp_red. unfold v_gt, v_ge, v_ne. rewrite A, B, C, D, E.
  destruct lt, eq, gt; cbn; intuition congruence.
Qed.

Lemma comparisons_transitive : forall reg st a b c,
  same_kind a b -> same_kind b c ->
  cmp_true reg st BLt a b -> cmp_true reg st BLt b c -> cmp_true reg st BLt a c.
Proof.
  intros reg st a b c Hab Hbc. cmp_red.
  destruct a as [|x|x|x], b as [|y|y|y]; cbn in Hab; try tauto;
    destruct c as [|z|z|z]; cbn in Hbc; try tauto; cbn [v_lt]; intros H1 H2.
  - lia.
  - destruct Hab, Hbc. rewrite sfltb_key in * by auto. eapply lexlt_trans; eauto.
  - unfold String.ltb in *.
    destruct (String.compare x y) eqn:E1; try discriminate.
    destruct (String.compare y z) eqn:E2; try discriminate.
    rewrite (string_lt_trans x y z); auto.
Qed.

(** ** Logical operators *)

Lemma logic_ints : forall reg st op a b r ms,
  In op [BLogAnd; BLogOr; BLt; BLe; BGt; BGe; BEq; BNe] ->
  (In op [BLogAnd; BLogOr] -> (exists x, a = VInt x) /\ (exists y, b = VInt y)) ->
  eval reg st (EBin op (const_expr a) (const_expr b)) = OVal r ms ->
  (r = VInt 0 \/ r = VInt 1) /\ ms = [] /\
  (op = BLogAnd -> (r = VInt 1 <-> truth a /\ truth b)) /\
  (op = BLogOr -> (r = VInt 1 <-> truth a \/ truth b)).
Proof.
  intros reg st op a b r ms Hop Hint H. rewrite eval_bin_const in H.
  assert (B : forall t, @oret value (VInt (bool_int t)) = OVal r ms ->
            (r = VInt 0 \/ r = VInt 1) /\ ms = []).
  { intros t E. unfold oret in E. inversion E. destruct t; cbn; auto. }
  cbn in Hop.
  destruct Hop as [<-|[<-|[<-|[<-|[<-|[<-|[<-|[<-|[]]]]]]]]]; cbn [apply_bin] in H;
    try (apply B in H; intuition discriminate).
  - destruct Hint as [[x ->] [y ->]]; [cbn; auto|]. cbn [v_logic] in H.
    unfold oret in H. inversion H; subst. cbn [truth]. unfold truthy_int, bool_int.
    destruct (x =? 0) eqn:E1, (y =? 0) eqn:E2; cbn; intuition (try congruence; try lia).
  - destruct Hint as [[x ->] [y ->]]; [cbn; auto|]. cbn [v_logic] in H.
    unfold oret in H. inversion H; subst. cbn [truth]. unfold truthy_int, bool_int.
    destruct (x =? 0) eqn:E1, (y =? 0) eqn:E2; cbn; intuition (try congruence; try lia).
Qed.

Lemma lognot_numbers : forall reg st a,
  (exists x, a = VInt x) \/ (exists f, a = VFloat f) ->
  exists r, eval reg st (EUn ULogNot (const_expr a)) = OVal (VInt r) [] /\ is01 (~ truth a) r.
Proof.
  intros reg st a H. cbn [eval]. rewrite eval_const. cbn [obind apply_un oret app].
  destruct H as [[x ->]|[f ->]]; cbn [v_not truth].
  - exists (bool_int (x =? 0)). split; [reflexivity|]. apply is01_bool. lia.
  - exists (bool_int (double_zero f)). split; [reflexivity|]. apply is01_bool.
    destruct f; cbn; intuition congruence.
Qed.

(** ** min and max *)

Lemma minmax_ints : forall ib fb ps icur ibest fbest,
  all_ints ps ->
  minmax_loop ib fb ps icur ibest fbest true =
  VInt (fold_left (fun best v => match v with VInt z => if ib z best then z else best | _ => best end) ps ibest).
Proof.
  intros ib fb ps. induction ps as [|v t IH]; intros icur ibest fbest H; cbn; auto.
  destruct (H v (or_introl eq_refl)) as [z ->]. cbn.
  apply IH. intros w Hw. apply H. right; auto.
Qed.

Lemma fold_min_spec : forall ps (acc : Z),
  all_ints ps ->
  let m := fold_left (fun best v => match v with VInt z => if z <? best then z else best | _ => best end) ps acc in
  (m = acc \/ In (VInt m) ps) /\ m <= acc /\ (forall z, In (VInt z) ps -> m <= z).
Proof.
  induction ps as [|v t IH]; intros acc H; cbn [fold_left].
  - cbn. intuition lia.
  - destruct (H v (or_introl eq_refl)) as [z ->].
    assert (Ht : all_ints t) by (intros w Hw; apply H; right; auto).
    specialize (IH (if z <? acc then z else acc) Ht). cbn zeta in *.
    set (m := fold_left _ t _) in *. destruct IH as (A & B & C).
    destruct (z <? acc) eqn:E; (split; [|split]).
    + right. destruct A as [->|A]; [left; auto|right; auto].
    + lia.
    + intros w [Hw|Hw]; [inversion Hw; subst; lia|auto].
    + destruct A as [->|A]; [left; auto|right; right; auto].
    + lia.
    + intros w [Hw|Hw]; [inversion Hw; subst; lia|auto].
Qed.

Lemma fold_max_spec : forall ps (acc : Z),
  all_ints ps ->
  let m := fold_left (fun best v => match v with VInt z => if z >? best then z else best | _ => best end) ps acc in
  (m = acc \/ In (VInt m) ps) /\ m >= acc /\ (forall z, In (VInt z) ps -> m >= z).
Proof.
  induction ps as [|v t IH]; intros acc H; cbn [fold_left].
  - cbn. intuition lia.
  - destruct (H v (or_introl eq_refl)) as [z ->].
    assert (Ht : all_ints t) by (intros w Hw; apply H; right; auto).
    specialize (IH (if z >? acc then z else acc) Ht). cbn zeta in *.
    set (m := fold_left _ t _) in *. destruct IH as (A & B & C).
    destruct (z >? acc) eqn:E; (split; [|split]).
    + right. destruct A as [->|A]; [left; auto|right; auto].
    + lia.
    + intros w [Hw|Hw]; [inversion Hw; subst; lia|auto].
    + destruct A as [->|A]; [left; auto|right; right; auto].
    + lia.
    + intros w [Hw|Hw]; [inversion Hw; subst; lia|auto].
Qed.

(** Float accumulation. *)
Lemma minmax_floats : forall ib fb ps icur ibest fbest isint,
  all_numbers ps -> (isint = true -> some_float ps) ->
  minmax_loop ib fb ps icur ibest fbest isint =
  VFloat (fold_left (fun best f => if fb f best then f else best) (map as_double ps) fbest).
Proof.
  intros ib fb ps. induction ps as [|v t IH]; intros icur ibest fbest isint H F; cbn.
  - destruct isint; auto. destruct (F eq_refl) as [f []].
  - assert (Ht : all_numbers t) by (intros w Hw; apply H; right; auto).
    pose proof (H v (or_introl eq_refl)) as N.
    destruct v as [|z|f|s]; cbn in N; try tauto.
    + cbn. apply IH; auto. intro E. destruct (F E) as [f [Hf|Hf]]; [discriminate|exists f; auto].
    + cbn. apply IH; auto. discriminate.
Qed.

Lemma fold_fmin_spec : forall fs acc, not_nan acc -> (forall f, In f fs -> not_nan f) ->
  let m := fold_left (fun best f => if SFltb f best then f else best) fs acc in
  not_nan m /\ (m = acc \/ In m fs) /\ SFleb m acc = true /\ (forall f, In f fs -> SFleb m f = true).
Proof.
  induction fs as [|g t IH]; intros acc Ha H; cbn [fold_left].
  - cbn. repeat split; auto; try (intros f []). apply sfleb_key; auto using lexlt_irrefl.
  - assert (Hg : not_nan g) by (apply H; left; auto).
    assert (Hacc' : not_nan (if SFltb g acc then g else acc)) by (destruct (SFltb g acc); auto).
    specialize (IH _ Hacc' (fun f Hf => H f (or_intror Hf))). cbn zeta in *.
    set (m := fold_left _ t _) in *. destruct IH as (Nm & A & B & C).
    assert (Tr : forall x y z, not_nan x -> not_nan y -> not_nan z ->
       SFleb x y = true -> SFleb y z = true -> SFleb x z = true).
    { intros x y z Hx Hy Hz. rewrite !sfleb_key by auto. intros P Q R.
      destruct (lexlt_trich (fkey x) (fkey y)) as [L|[L|L]]; auto.
      - apply Q. eapply lexlt_trans; eauto.
      - rewrite L in R. auto. }
    assert (Le : forall x y, not_nan x -> not_nan y -> SFltb x y = true -> SFleb x y = true).
    { intros x y Hx Hy. rewrite sfltb_key, sfleb_key by auto. intros P Q.
      eapply lexlt_irrefl, lexlt_trans; eauto. }
    assert (Nl : forall x y, not_nan x -> not_nan y -> SFltb x y = false -> SFleb y x = true).
    { intros x y Hx Hy P. apply sfleb_key; auto. intro Q. apply sfltb_key in Q; auto. congruence. }
    destruct (SFltb g acc) eqn:E; (split; [auto|split; [|split]]).
    + right. destruct A as [->|A]; [left; auto|right; auto].
    + eapply (Tr m g acc); eauto.
    + intros f [<-|Hf]; auto.
    + destruct A as [->|A]; [left; auto|right; right; auto].
    + auto.
    + intros f [<-|Hf]; auto. eapply (Tr m acc g); eauto.
Qed.

Lemma fold_fmax_spec : forall fs acc, not_nan acc -> (forall f, In f fs -> not_nan f) ->
  let m := fold_left (fun best f => if SFltb best f then f else best) fs acc in
  not_nan m /\ (m = acc \/ In m fs) /\ SFleb acc m = true /\ (forall f, In f fs -> SFleb f m = true).
Proof.
  induction fs as [|g t IH]; intros acc Ha H; cbn [fold_left].
  - cbn. repeat split; auto; try (intros f []). apply sfleb_key; auto using lexlt_irrefl.
  - assert (Hg : not_nan g) by (apply H; left; auto).
    assert (Hacc' : not_nan (if SFltb acc g then g else acc)) by (destruct (SFltb acc g); auto).
    specialize (IH _ Hacc' (fun f Hf => H f (or_intror Hf))). cbn zeta in *.
    set (m := fold_left _ t _) in *. destruct IH as (Nm & A & B & C).
    assert (Tr : forall x y z, not_nan x -> not_nan y -> not_nan z ->
       SFleb x y = true -> SFleb y z = true -> SFleb x z = true).
    { intros x y z Hx Hy Hz. rewrite !sfleb_key by auto. intros P Q R.
      destruct (lexlt_trich (fkey x) (fkey y)) as [L|[L|L]]; auto.
      - apply Q. eapply lexlt_trans; eauto.
      - rewrite L in R. auto. }
    assert (Le : forall x y, not_nan x -> not_nan y -> SFltb x y = true -> SFleb x y = true).
    { intros x y Hx Hy. rewrite sfltb_key, sfleb_key by auto. intros P Q.
      eapply lexlt_irrefl, lexlt_trans; eauto. }
    assert (Nl : forall x y, not_nan x -> not_nan y -> SFltb x y = false -> SFleb y x = true).
    { intros x y Hx Hy P. apply sfleb_key; auto. intro Q. apply sfltb_key in Q; auto. congruence. }
    destruct (SFltb acc g) eqn:E; (split; [auto|split; [|split]]).
    + right. destruct A as [->|A]; [left; auto|right; auto].
    + eapply (Tr acc g m); eauto.
    + intros f [<-|Hf]; auto.
    + destruct A as [->|A]; [left; auto|right; right; auto].
    + auto.
    + intros f [<-|Hf]; auto. eapply (Tr g acc m); eauto.
Qed.

(** Evaluating a call on constants. *)
Lemma eval_list_const : forall reg st vs, (forall v, In v vs -> v <> VInvalid) ->
  eval_list (eval reg st) (map const_expr vs) = OVal (Some vs) [].
Proof.
  intros reg st vs. induction vs as [|v t IH]; intros H; cbn; auto.
  rewrite eval_const. cbn. assert (is_valid v = true) as ->.
  { pose proof (H v (or_introl eq_refl)). destruct v; cbn; congruence. }
  cbn in IH. rewrite IH by (intros w Hw; apply H; right; auto). reflexivity.
Qed.

Lemma eval_minmax : forall arch users st name ps f,
  (name = "min"%string /\ f = f_min) \/ (name = "max"%string /\ f = f_max) ->
  (1 <= List.length ps <= 256)%nat -> (forall v, In v ps -> v <> VInvalid) ->
  eval (make_registry arch users) st (ECall name (map const_expr ps)) = f st ps.
Proof.
  intros arch users st name ps f Hn Hl Hv. cbn [eval].
  rewrite eval_list_const by auto. unfold call_function.
  assert (R : make_registry arch users name = Some (mkEntry 1 256 Safe (FValue f)))
    by (destruct Hn as [[-> ->]|[-> ->]]; reflexivity).
  rewrite R. cbn [fe_min fe_max fe_fun]. rewrite map_length.
  replace (List.length ps <? 1)%nat with false by (symmetry; apply Nat.ltb_ge; lia).
  replace (256 <? List.length ps)%nat with false by (symmetry; apply Nat.ltb_ge; lia).
  cbn [obind app]. destruct (f st ps); reflexivity.
Qed.

Lemma ints_valid : forall ps, all_ints ps -> forall v, In v ps -> v <> VInvalid.
Proof. intros ps H v Hv. destruct (H v Hv) as [z ->]. discriminate. Qed.
Lemma numbers_valid : forall ps, all_numbers ps -> forall v, In v ps -> v <> VInvalid.
Proof. intros ps H v Hv E. pose proof (H v Hv) as N. rewrite E in N. exact N. Qed.
Lemma numbers_not_nan : forall ps, all_numbers ps -> forall f, In f (map as_double ps) -> not_nan f.
Proof.
  intros ps H f Hf. apply in_map_iff in Hf. destruct Hf as (v & <- & Hv).
  pose proof (H v Hv) as N. destruct v; cbn in *; try tauto. apply int_to_double_not_nan.
Qed.

Lemma min_int : forall arch users st ps,
  (1 <= List.length ps <= 256)%nat -> all_ints ps -> (forall z, In (VInt z) ps -> is_int64 z) ->
  exists m, eval (make_registry arch users) st (ECall "min" (map const_expr ps)) = OVal (VInt m) [] /\
    In (VInt m) ps /\ (forall z, In (VInt z) ps -> m <= z).
Proof.
  intros arch users st ps Hl Hi Hr.
  rewrite (eval_minmax arch users st "min" ps f_min) by (eauto using ints_valid).
  unfold f_min, oret. rewrite minmax_ints by auto.
  destruct (fold_min_spec ps int64_max Hi) as (A & B & C).
  eexists. split; [reflexivity|]. split; [|exact C].
  destruct A as [A|A]; auto. destruct ps as [|v t]; cbn in Hl; try lia.
  destruct (Hi v (or_introl eq_refl)) as [z ->].
  pose proof (C z (or_introl eq_refl)) as L. pose proof (Hr z (or_introl eq_refl)) as R.
  rewrite A in *. unfold is_int64 in R. assert (z = int64_max) by lia. subst. left; auto.
Qed.

Lemma max_int : forall arch users st ps,
  (1 <= List.length ps <= 256)%nat -> all_ints ps -> (forall z, In (VInt z) ps -> is_int64 z) ->
  exists m, eval (make_registry arch users) st (ECall "max" (map const_expr ps)) = OVal (VInt m) [] /\
    In (VInt m) ps /\ (forall z, In (VInt z) ps -> m >= z).
Proof.
  intros arch users st ps Hl Hi Hr.
  rewrite (eval_minmax arch users st "max" ps f_max) by (eauto using ints_valid).
  unfold f_max, oret. rewrite minmax_ints by auto.
  destruct (fold_max_spec ps int64_min Hi) as (A & B & C).
  eexists. split; [reflexivity|]. split; [|exact C].
  destruct A as [A|A]; auto. destruct ps as [|v t]; cbn in Hl; try lia.
  destruct (Hi v (or_introl eq_refl)) as [z ->].
  pose proof (C z (or_introl eq_refl)) as L. pose proof (Hr z (or_introl eq_refl)) as R.
  rewrite A in *. unfold is_int64 in R. assert (z = int64_min) by lia. subst. left; auto.
Qed.

Lemma fkey_finite_inj : forall f s m e, not_nan f -> fkey f = fkey (S754_finite s m e) ->
  f = S754_finite s m e.
Proof.
  intros f s m e N H. unfold not_nan in N.
  destruct f as [sf|sf| |sf mf ef]; try congruence; try destruct sf; destruct s; cbn in H;
    try discriminate; injection H; intros; f_equal; lia.
Qed.

Lemma min_float : forall arch users st ps,
  (1 <= List.length ps <= 256)%nat -> all_numbers ps -> some_float ps ->
  (exists v, In v ps /\ SFleb (as_double v) dbl_max = true) ->
  exists m, eval (make_registry arch users) st (ECall "min" (map const_expr ps)) = OVal (VFloat m) [] /\
    In m (map as_double ps) /\ (forall v, In v ps -> SFleb m (as_double v) = true).
Proof.
  intros arch users st ps Hl Hn Hf (v0 & Hv0 & L0).
  rewrite (eval_minmax arch users st "min" ps f_min) by (eauto using numbers_valid).
  unfold f_min, oret. rewrite minmax_floats by auto.
  pose proof (numbers_not_nan ps Hn) as NN.
  destruct (fold_fmin_spec (map as_double ps) dbl_max ltac:(discriminate) NN) as (Nm & A & B & C).
  eexists. split; [reflexivity|]. split.
  - destruct A as [A|A]; auto.
    pose proof (C (as_double v0) (in_map _ _ _ Hv0)) as L. rewrite A in *.
    apply in_map_iff. exists v0. split; auto.
    assert (N0 : not_nan (as_double v0)) by (apply NN, in_map; auto).
    rewrite sfleb_key in L0, L by (auto; discriminate).
    apply fkey_finite_inj; auto.
    destruct (lexlt_trich (fkey (as_double v0)) (fkey dbl_max)) as [X|[X|X]]; tauto.
  - intros v Hv. apply C, in_map; auto.
Qed.

Lemma max_float : forall arch users st ps,
  (1 <= List.length ps <= 256)%nat -> all_numbers ps -> some_float ps ->
  (exists v, In v ps /\ SFleb dbl_min (as_double v) = true) ->
  exists m, eval (make_registry arch users) st (ECall "max" (map const_expr ps)) = OVal (VFloat m) [] /\
    In m (map as_double ps) /\ (forall v, In v ps -> SFleb (as_double v) m = true).
Proof.
  intros arch users st ps Hl Hn Hf (v0 & Hv0 & L0).
  rewrite (eval_minmax arch users st "max" ps f_max) by (eauto using numbers_valid).
  unfold f_max, oret. rewrite minmax_floats by auto.
  pose proof (numbers_not_nan ps Hn) as NN.
  destruct (fold_fmax_spec (map as_double ps) dbl_min ltac:(discriminate) NN) as (Nm & A & B & C).
  eexists. split; [reflexivity|]. split.
  - destruct A as [A|A]; auto.
    pose proof (C (as_double v0) (in_map _ _ _ Hv0)) as L. rewrite A in *.
    apply in_map_iff. exists v0. split; auto.
    assert (N0 : not_nan (as_double v0)) by (apply NN, in_map; auto).
    rewrite sfleb_key in L0, L by (auto; discriminate).
    apply fkey_finite_inj; auto.
    destruct (lexlt_trich (fkey (as_double v0)) (fkey dbl_min)) as [X|[X|X]]; tauto.
  - intros v Hv. apply C, in_map; auto.
Qed.
