(** Reading fields out of words that were assembled with [lor] and left shifts. *)

Require Import ZArith Lia Bool List.
Require Import ZifyBool.
Require Import Verif.Ints Verif.IntsLemmas.
Local Open Scope Z_scope.
Ltac Zify.zify_post_hook ::= Z.div_mod_to_equations.

Lemma bits_shiftl_above v p lo len :
  0 <= lo -> 0 <= len -> lo + len <= p -> bits (Z.shiftl v p) lo len = 0.
Proof.
  intros. apply Z.bits_inj'. intros i Hi. rewrite bits_testbit, Z.bits_0 by lia.
  destruct (Z.ltb_spec i len); [cbn [andb]|reflexivity].
  rewrite Z.shiftl_spec by lia. apply Z.testbit_neg_r. lia.
Qed.

Lemma bits_shiftl_low v p lo len :
  0 <= p -> p <= lo -> 0 <= len -> bits (Z.shiftl v p) lo len = bits v (lo - p) len.
Proof.
  intros. apply Z.bits_inj'. intros i Hi. rewrite !bits_testbit by lia.
  destruct (Z.ltb_spec i len); [cbn [andb]|reflexivity].
  rewrite Z.shiftl_spec by lia. f_equal. lia.
Qed.

Lemma bits_shiftl_inside v p lo len :
  0 <= lo -> lo <= p -> p <= lo + len -> 0 <= v < 2 ^ (lo + len - p) ->
  bits (Z.shiftl v p) lo len = Z.shiftl v (p - lo).
Proof.
  intros. apply Z.bits_inj'. intros i Hi. rewrite bits_testbit by lia.
  rewrite !Z.shiftl_spec by lia. replace (lo + i - p) with (i - (p - lo)) by lia.
  destruct (Z.ltb_spec i len); [reflexivity|].
  cbn [andb]. symmetry. apply (testbit_small v (lo + len - p)); lia.
Qed.

Lemma bits_small v lo len : 0 <= lo -> 0 <= len -> 0 <= v < 2 ^ lo -> bits v lo len = 0.
Proof. intros. unfold bits. rewrite Z.div_small by lia. apply Z.mod_0_l. apply Z.pow_nonzero; lia. Qed.

Lemma bits_id v len : 0 <= len -> 0 <= v < 2 ^ len -> bits v 0 len = v.
Proof. intros. unfold bits. rewrite Z.div_1_r. apply Z.mod_small. lia. Qed.

Lemma bits_u32 x lo len : 0 <= lo -> 0 <= len -> lo + len <= 32 -> bits (u32 x) lo len = bits x lo len.
Proof.
  intros. apply Z.bits_inj'. intros i Hi. rewrite !bits_testbit by lia.
  destruct (Z.ltb_spec i len); [cbn [andb]|reflexivity].
  unfold u32. change 4294967296 with (2 ^ 32). apply Z.mod_pow2_bits_low. lia.
Qed.

Lemma bits_u16 x lo len : 0 <= lo -> 0 <= len -> lo + len <= 16 -> bits (u16 x) lo len = bits x lo len.
Proof.
  intros. apply Z.bits_inj'. intros i Hi. rewrite !bits_testbit by lia.
  destruct (Z.ltb_spec i len); [cbn [andb]|reflexivity].
  unfold u16. change 65536 with (2 ^ 16). apply Z.mod_pow2_bits_low. lia.
Qed.

Lemma bits_land_mask x n lo len : 0 <= lo -> 0 <= len -> lo + len <= n ->
  bits (Z.land x (2 ^ n - 1)) lo len = bits x lo len.
Proof.
  intros. rewrite land_ones_mod by lia. apply Z.bits_inj'. intros i Hi. rewrite !bits_testbit by lia.
  destruct (Z.ltb_spec i len); [cbn [andb]|reflexivity].
  apply Z.mod_pow2_bits_low. lia.
Qed.

Lemma bits_eq_mod x y lo len n : 0 <= lo -> 0 <= len -> lo + len <= n ->
  x mod 2 ^ n = y mod 2 ^ n -> bits x lo len = bits y lo len.
Proof.
  intros Hlo Hlen Hn H. apply Z.bits_inj'. intros i Hi. rewrite !bits_testbit by lia.
  destruct (Z.ltb_spec i len); [cbn [andb]|reflexivity].
  rewrite <- (Z.mod_pow2_bits_low x n) by lia. rewrite H. apply Z.mod_pow2_bits_low. lia.
Qed.

(** Side conditions: ranges against closed powers of two. *)
Ltac pow_eval :=
  repeat match goal with
  | |- context [2 ^ ?e] => let k := eval vm_compute in (2 ^ e) in change (2 ^ e) with k
  end.
Ltac bits_side := pow_eval; lia.

Ltac is_cst_pos p := match p with xH => idtac | xO ?q => is_cst_pos q | xI ?q => is_cst_pos q end.
Ltac is_cst z := match z with Z0 => idtac | Zpos ?p => is_cst_pos p | Zneg ?p => is_cst_pos p end.

Ltac bits_step :=
  match goal with
  | |- context [bits (Z.lor ?a ?b) ?lo ?len] => rewrite (bits_lor a b lo len) by lia
  | |- context [bits (u32 ?a) ?lo ?len] => rewrite (bits_u32 a lo len) by lia
  | |- context [bits (u16 ?a) ?lo ?len] => rewrite (bits_u16 a lo len) by lia
  | |- context [bits ?v ?lo ?len] =>
      is_cst v; is_cst lo; is_cst len;
      let k := eval vm_compute in (bits v lo len) in change (bits v lo len) with k
  | |- context [bits (Z.shiftl ?v ?p) ?lo ?len] =>
      first [ rewrite (bits_shiftl_above v p lo len) by lia
            | rewrite (bits_shiftl_low v p lo len) by lia;
              let k := eval vm_compute in (lo - p) in change (lo - p) with k
            | rewrite (bits_shiftl_inside v p lo len) by bits_side;
              let k := eval vm_compute in (p - lo) in change (p - lo) with k ]
  | |- context [bits ?v ?lo ?len] =>
      is_cst lo; is_cst len;
      first [ match lo with 0 => rewrite (bits_id v len) by bits_side end
            | rewrite (bits_small v lo len) by bits_side ]
  end.
Ltac bits_norm := repeat bits_step; rewrite ?Z.lor_0_l, ?Z.lor_0_r.

(** Clearing one bit, [x & ~(1 << n)]. *)
Lemma bits_clear_other x n lo len : 0 <= n -> 0 <= lo -> 0 <= len -> (lo + len <= n \/ n < lo) ->
  bits (Z.land x (Z.lnot (Z.shiftl 1 n))) lo len = bits x lo len.
Proof.
  intros. apply Z.bits_inj'. intros i Hi. rewrite !bits_testbit by lia.
  destruct (Z.ltb_spec i len); [cbn [andb]|reflexivity].
  rewrite Z.land_spec, Z.lnot_spec by lia. rewrite Z.shiftl_1_l, Z.pow2_bits_eqb by lia.
  replace (n =? lo + i) with false by lia. cbn [negb]. apply andb_true_r.
Qed.

Lemma bits_clear_same x n : 0 <= n -> bits (Z.land x (Z.lnot (Z.shiftl 1 n))) n 1 = 0.
Proof.
  intros. apply Z.bits_inj'. intros i Hi. rewrite bits_testbit by lia.
  destruct (Z.ltb_spec i 1); [cbn [andb]|rewrite Z.bits_0; reflexivity].
  rewrite Z.land_spec, Z.lnot_spec by lia. rewrite Z.shiftl_1_l, Z.pow2_bits_eqb by lia.
  replace (n =? n + i) with true by lia. cbn [negb]. rewrite Z.bits_0. apply andb_false_r.
Qed.

Ltac bits_clear :=
  repeat match goal with
  | |- context [bits (Z.land ?x (Z.lnot (Z.shiftl 1 ?n))) ?lo ?len] =>
      first [ rewrite (bits_clear_other x n lo len) by lia | rewrite (bits_clear_same x n) by lia ]
  end.
