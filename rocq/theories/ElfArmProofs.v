(** Proofs on references of imported ARM and Thumb code. *)

Require Import ZArith Lia Bool String List.
Require Import ZifyBool.
Require Import Verif.Ints Verif.IntsLemmas Verif.Res Verif.ElfModel Verif.ElfSpec Verif.ElfProofs Verif.ElfRelocProofs Verif.ElfWordProofs.
Require Verif.ArmSpec Verif.ThumbSpec.
Import ListNotations.
Local Open Scope Z_scope.
Ltac Zify.zify_post_hook ::= Z.div_mod_to_equations.

Definition arm_type (t : bool) : Z := if t then 1 else 0.

Lemma arm_reference arm9 labels start fs out f p s x r a t : imported (Arm arm9) labels start fs out f p s x -> In r (se_rels s) -> refers (Arm arm9) labels f p r a t ->
  r_type r <> R_ARM_V4BX ->
  exists d acts, d_offset d = r_offset r + x /\ d_base d = a /\ d_opcode d = before f s r /\ is_thumb d = t /\ 0 <= before f s r < 4294967296 /\
    arm_relocate arm9 (r_type r) d = ROk (acts, true) /\
    (forall w, acts = [(d_offset d, w)] -> after f out start x r = u32 w).
Proof.
  intros Im I Rf N. destruct (reference_opcode _ _ _ _ _ _ _ _ _ _ _ _ Im I Rf) as (d & h1 & a2 & h2 & Do & Db & Dp & Dt & Rg & O & G).
  { cbn [isDummyRelocationType]. lia. }
  cbn [relocateOpcode] in O. apply do_ok in O. destruct O as ([acts ok] & P & O). apply ok3 in O. cbn [fst snd] in O. destruct O as (<- & <- & ->).
  exists d, acts. repeat (split; [assumption |]). intros w ->. apply (G [] w); [reflexivity | intros b [] | auto].
Qed.

Lemma lor_1 v : Z.lor v 1 = v / 2 * 2 + 1.
Proof.
  assert (E : v = Z.lor (v / 2 * 2 ^ 1) (v mod 2)) by (rewrite lor_mul_pow2_small; change (2 ^ 1) with 2; lia).
  rewrite E at 1. rewrite <- Z.lor_assoc. replace (Z.lor (v mod 2) 1) with 1.
  - rewrite lor_mul_pow2_small; change (2 ^ 1) with 2; lia.
  - assert (H : v mod 2 = 0 \/ v mod 2 = 1) by lia. destruct H as [-> | ->]; reflexivity.
Qed.

Lemma arm_word arm9 labels start fs out f p s x r a t : imported (Arm arm9) labels start fs out f p s x -> In r (se_rels s) -> refers (Arm arm9) labels f p r a t ->
  r_type r = R_ARM_ABS32 \/ r_type r = R_ARM_TARGET1 ->
  after f out start x r = if t then u32 (before f s r + a) / 2 * 2 + 1 else u32 (before f s r + a).
Proof.
  intros Im I Rf T. destruct (arm_reference _ _ _ _ _ _ _ _ _ _ _ _ Im I Rf) as (d & acts & Do & Db & Dp & Dt & Rg & O & G).
  { unfold R_ARM_V4BX, R_ARM_ABS32, R_ARM_TARGET1 in *. lia. }
  unfold arm_relocate in O. cbv zeta in O. replace ((r_type r =? R_ARM_ABS32) || (r_type r =? R_ARM_TARGET1)) with true in O by lia.
  apply ok2 in O. destruct O as (<- & _). rewrite (G _ eq_refl). fold (is_thumb d). rewrite Dt, Db, Dp.
  pose proof (u32_range (before f s r + a)). destruct t.
  - rewrite lor_1. apply u32_small. lia.
  - rewrite Z.lor_0_r. apply u32_idem.
Qed.

(** ** Branches *)

Lemma some3 {A B C} (a a' : A) (b b' : B) (c c' : C) : Some (a, b, c) = Some (a', b', c') -> a = a' /\ b = b' /\ c = c'.
Proof. intros E. injection E. auto. Qed.
Lemma s32_off v : exists k, s32 v = v + k * 4294967296.
Proof.
  pose proof (s32_mod v) as E. exists ((s32 v - v) / 4294967296). clear -E. generalize dependent (s32 v). intros w E. lia.
Qed.
Lemma u32_eq a b k : a = b + k * 4294967296 -> u32 a = u32 b.
Proof. intros ->. unfold u32. apply Z.mod_add. lia. Qed.
(** The target of a branch whose distance is right. *)
Lemma target_ok c a e p v at_ t0 : v = s32 a + e - s32 p -> at_ = p -> t0 = u32 (c + e) -> u32 (at_ + c + v) = u32 (a + t0).
Proof.
  intros -> -> ->. destruct (s32_off a) as (k1 & ->). destruct (s32_off p) as (k2 & ->).
  assert (E : exists k3, u32 (c + e) = c + e + k3 * 4294967296) by (exists (- ((c + e) / 4294967296)); unfold u32; lia).
  destruct E as (k3 & ->). apply (u32_eq _ _ (k1 - k2 - k3)). lia.
Qed.

Lemma distance_ok s a p v : distance s a p = ROk v -> v = s + a - p.
Proof. unfold distance. destruct (negb _); [discriminate |]. destruct (negb _); [discriminate |]. intros H. apply ROk_inj in H. congruence. Qed.

Lemma arm_addend op : 0 <= op < 4294967296 -> signExtend (Z.shiftl (Z.land op 0xFFFFFF) 2) 26 = 4 * ArmSpec.sign_extend 24 (bits op 0 24).
Proof.
  intros H. unfold signExtend, ArmSpec.sign_extend, bits. rewrite land_ffffff, !shiftl_mul, shiftr_div by lia.
  change (2 ^ (32 - 26)) with 64. change (2 ^ 2) with 4. change (2 ^ (24 - 1)) with 8388608. change (2 ^ 24) with 16777216. change (2 ^ 0) with 1. rewrite Z.div_1_r.
  assert (0 <= op mod 16777216 < 16777216) by (apply Z.mod_pos_bound; lia). generalize dependent (op mod 16777216). clear. intros m Hm.
  unfold s32. cbv zeta. destruct (m <? 8388608) eqn:E; destruct ((m * 4 * 64) mod 4294967296 <? 2147483648) eqn:E'; lia.
Qed.

(** Decoding a word with the upper byte [h]. *)
Lemma decode_parts at_ h v : 0 <= h < 256 -> -33554432 <= v < 33554432 ->
  ArmSpec.decode_branch at_ (h * 16777216 + (v / 4) mod 16777216) =
  if (h / 2) mod 8 =? 5 then
    if h / 16 =? 15 then Some (ArmSpec.BrBLX, 15, u32 (at_ + 8 + v / 4 * 4 + 2 * (h mod 2)))
    else Some (if h mod 2 =? 1 then ArmSpec.BrBL else ArmSpec.BrB, h / 16, u32 (at_ + 8 + v / 4 * 4))
  else None.
Proof.
  intros Hh Hv. unfold ArmSpec.decode_branch, ArmSpec.sign_extend, bits.
  change (2 ^ 25) with 33554432. change (2 ^ 3) with 8. change (2 ^ 24) with 16777216. change (2 ^ 1) with 2. change (2 ^ 28) with 268435456.
  change (2 ^ 4) with 16. change (2 ^ 0) with 1. change (2 ^ (24 - 1)) with 8388608. cbv zeta. rewrite Z.div_1_r.
  assert (Hi : 0 <= (v / 4) mod 16777216 < 16777216) by (apply Z.mod_pos_bound; lia).
  assert (Ei : (if (v / 4) mod 16777216 <? 8388608 then (v / 4) mod 16777216 else (v / 4) mod 16777216 - 16777216) = v / 4).
  { destruct ((v / 4) mod 16777216 <? 8388608) eqn:E; lia. }
  generalize dependent ((v / 4) mod 16777216). intros i Hi Ei.
  replace ((h * 16777216 + i) mod 16777216) with i by lia. rewrite Ei.
  replace ((h * 16777216 + i) / 33554432 mod 8) with ((h / 2) mod 8) by lia.
  replace ((h * 16777216 + i) / 268435456 mod 16) with (h / 16) by lia.
  replace ((h * 16777216 + i) / 16777216 mod 2) with (h mod 2) by lia.
  replace (4 * (v / 4)) with (v / 4 * 4) by lia.
  destruct ((h / 2) mod 8 =? 5); [| reflexivity]. destruct (h / 16 =? 15); [reflexivity |]. destruct (h mod 2 =? 1); reflexivity.
Qed.

Lemma arm_branch_ok arm9 labels start fs out f p s x r a t k c t0 :
  imported (Arm arm9) labels start fs out f p s x -> In r (se_rels s) -> refers (Arm arm9) labels f p r a t ->
  r_type r = R_ARM_CALL \/ r_type r = R_ARM_JUMP24 ->
  (x + r_offset r) mod 4 = 0 -> ArmSpec.decode_branch 0 (before f s r) = Some (k, c, t0) -> k <> ArmSpec.BrBLX ->
  ArmSpec.decode_branch (x + r_offset r) (after f out start x r) =
    Some (if t then ArmSpec.BrBLX else k, if t then 15 else c, u32 (a + t0)) /\
  a mod (if t then 2 else 4) = 0 /\
  (t = true -> r_type r = R_ARM_CALL /\ arm9 = true /\ c = 14).
Proof.
  intros Im I Rf T Al De Nk. destruct (arm_reference _ _ _ _ _ _ _ _ _ _ _ _ Im I Rf) as (d & acts & Do & Db & Dp & Dt & Rg & O & G).
  { unfold R_ARM_V4BX, R_ARM_CALL, R_ARM_JUMP24 in *. lia. }
  unfold arm_relocate in O. cbv zeta in O.
  replace ((r_type r =? R_ARM_ABS32) || (r_type r =? R_ARM_TARGET1)) with false in O by (unfold R_ARM_ABS32, R_ARM_TARGET1, R_ARM_CALL, R_ARM_JUMP24 in *; lia).
  replace (r_type r =? R_ARM_THM_CALL) with false in O by (unfold R_ARM_THM_CALL, R_ARM_CALL, R_ARM_JUMP24 in *; lia).
  replace ((r_type r =? R_ARM_CALL) || (r_type r =? R_ARM_JUMP24)) with true in O by lia.
  apply do_ok in O. destruct O as (v & V & O). apply distance_ok in V.
  fold (is_thumb d) in O. rewrite Dt, Db, Dp in *. rewrite Do in V. rewrite arm_addend in V by exact Rg.
  destruct (arm_branch arm9 (r_type r) (if t then 1 else 0) a (before f s r) v) as [op |] eqn:Eb; [| apply ok2 in O; destruct O; discriminate].
  destruct (v =? -2147483648); [discriminate |]. destruct (Z.abs v >=? 33554432) eqn:Ev; [apply ok2 in O; destruct O; discriminate |].
  apply ok2 in O. destruct O as (<- & _). rewrite (G _ eq_refl). clear G.
  rewrite shiftr_div, land_ffffff by lia. change (2 ^ 2) with 4.
  set (b := before f s r) in *. set (h := b / 16777216).
  assert (Hh : 0 <= h < 256) by (unfold h; lia).
  (* the word before *)
  assert (Eq : b = h * 16777216 + (4 * ArmSpec.sign_extend 24 (bits b 0 24) / 4) mod 16777216 /\ -33554432 <= 4 * ArmSpec.sign_extend 24 (bits b 0 24) < 33554432).
  { unfold h, ArmSpec.sign_extend, bits. change (2 ^ (24 - 1)) with 8388608. change (2 ^ 24) with 16777216. change (2 ^ 0) with 1. rewrite Z.div_1_r.
    clearbody b. clear - Rg. destruct (b mod 16777216 <? 8388608) eqn:E; lia. }
  destruct Eq as (Eq & Rs). set (e := 4 * ArmSpec.sign_extend 24 (bits b 0 24)) in *.
  assert (Ee : e mod 4 = 0) by (unfold e; lia).
  rewrite Eq in De. rewrite decode_parts in De by lia.
  destruct ((h / 2) mod 8 =? 5) eqn:H5; [| discriminate].
  destruct (h / 16 =? 15) eqn:H15; [apply some3 in De; destruct De as (De & _); congruence |]. apply some3 in De. destruct De as (Ek & Ec & Et).
  assert (Ps : s32 (r_offset r + x) mod 4 = 0) by (pose proof (s32_mod (r_offset r + x)); lia).
  pose proof (s32_mod (r_offset r + x)) as Pm. pose proof (s32_mod a) as Am.
  unfold arm_branch in Eb. destruct t.
  - change (1 =? 1) with true in Eb. cbv iota in Eb.
    destruct (Z.eqb_spec (Z.rem a 2) 0) as [Ra | Ra]; cbn [negb] in Eb; [| discriminate]. apply rem_mod0 in Ra; [| lia].
    destruct (r_type r =? R_ARM_JUMP24) eqn:Ej; [discriminate |]. destruct arm9; cbn [negb] in Eb; [| discriminate].
    destruct (Z.land (Z.shiftr b 28) 15 =? 14) eqn:Ecnd; cbn [negb] in Eb; [| discriminate].
    assert (Hc : h / 16 = 14).
    { rewrite land_15, shiftr_div in Ecnd by lia. change (2 ^ 28) with 268435456 in Ecnd. unfold h. lia. }
    split; [| split; [exact Ra | intros _; repeat split; [destruct T; [assumption | unfold R_ARM_JUMP24 in *; lia] | lia]]].
    assert (E2 : Z.land v 2 = v / 2 mod 2 * 2).
    { pose proof (Z.land_ones v 2 ltac:(lia)) as A1. pose proof (Z.land_ones v 1 ltac:(lia)) as A2.
      change (Z.ones 2) with (Z.lor 2 1) in A1. rewrite Z.land_lor_distr_r in A1. rewrite lor_add_disjoint in A1.
      - change (Z.ones 1) with 1 in A2. change (2 ^ 2) with 4 in A1. change (2 ^ 1) with 2 in A2. lia.
      - apply Z.bits_inj. intros i. rewrite !Z.land_spec, Z.bits_0. assert (Q : Z.testbit (Z.land 2 1) i = false) by apply Z.bits_0. rewrite Z.land_spec in Q.
        destruct (Z.testbit v i), (Z.testbit 2 i), (Z.testbit 1 i); cbn in *; congruence. }
    set (hb := v / 2 mod 2) in *. assert (Hb : 0 <= hb < 2) by (unfold hb; lia).
    assert (Eop : op = (250 + hb) * 2 ^ 24).
    { change (2 ^ 24) with 16777216. destruct (Z.land v 2 =? 0) eqn:Ez; injection Eb as <-; lia. }
    rewrite Eop, lor_mul_pow2_small by (change (2 ^ 24) with 16777216; lia). change (2 ^ 24) with 16777216.
    rewrite u32_small by lia. rewrite decode_parts by lia.
    replace ((250 + hb) / 2 mod 8 =? 5) with true by lia. replace ((250 + hb) / 16 =? 15) with true by lia. cbv iota.
    do 2 f_equal. replace (x + r_offset r + 8 + v / 4 * 4 + 2 * ((250 + hb) mod 2)) with (x + r_offset r + 8 + v).
    + apply (target_ok 8 _ e (r_offset r + x)); [exact V | lia |]. rewrite <- Et. f_equal. clear - Ee. lia.
    + assert (v mod 2 = 0) by (clear - V Ee Ps Am Ra; rewrite V; generalize dependent (s32 a); generalize dependent (s32 (r_offset r + x)); intros; lia).
      unfold hb. clear - H. lia.
  - change (0 =? 1) with false in Eb. cbv iota in Eb.
    destruct (Z.eqb_spec (Z.rem a 4) 0) as [Ra | Ra]; cbn [negb] in Eb; [| discriminate]. apply rem_mod0 in Ra; [| lia].
    split; [| split; [exact Ra | discriminate]]. injection Eb as <-. rewrite land_ff000000 by exact Rg. fold h.
    change (h * 16777216) with (h * 2 ^ 24). rewrite lor_mul_pow2_small by (change (2 ^ 24) with 16777216; lia). change (2 ^ 24) with 16777216.
    rewrite u32_small by lia. rewrite decode_parts by lia. rewrite H5, H15. rewrite <- Ek, <- Ec.
    do 2 f_equal. replace (v / 4 * 4) with v.
    + apply (target_ok 8 _ e (r_offset r + x)); [exact V | lia |]. rewrite <- Et. f_equal. clear - Ee. lia.
    + assert (v mod 4 = 0) by (clear - V Ee Ps Am Ra; rewrite V; generalize dependent (s32 a); generalize dependent (s32 (r_offset r + x)); intros; lia).
      clear - H. lia.
Qed.

(** ** Thumb calls *)

Lemma range8 q : 0 <= q < 8 -> q = 0 \/ q = 1 \/ q = 2 \/ q = 3 \/ q = 4 \/ q = 5 \/ q = 6 \/ q = 7.
Proof. lia. Qed.
Lemma range4 q : 0 <= q < 4 -> q = 0 \/ q = 1 \/ q = 2 \/ q = 3.
Proof. lia. Qed.

Inductive half_kind := HHigh | HLow | HLowX.
Definition half_base (k : half_kind) : Z := match k with HHigh => 61440 | HLow => 63488 | HLowX => 59392 end.
Definition half_instr (k : half_kind) (i : Z) : ThumbSpec.tinstr :=
  match k with
  | HHigh => ThumbSpec.TLongHigh (if i <? 1024 then i else i - 2048)
  | HLow => ThumbSpec.TLongLow i
  | HLowX => ThumbSpec.TLongLowX i
  end.
(** The halves of long calls decode as such, and nothing else does. *)
Lemma half_decode k i : 0 <= i < 2048 -> ThumbSpec.thumb_decode (half_base k + i) = Some (half_instr k i).
Proof.
  intros Hi. unfold ThumbSpec.thumb_decode. cbv zeta.
  assert (E1 : bits (half_base k + i) 13 3 = 7) by (unfold bits, half_base; destruct k; change (2 ^ 13) with 8192; change (2 ^ 3) with 8; lia). rewrite E1.
  assert (E2 : bits (half_base k + i) 11 2 = match k with HHigh => 2 | HLow => 3 | HLowX => 1 end)
    by (unfold bits, half_base; destruct k; change (2 ^ 11) with 2048; change (2 ^ 2) with 4; lia). rewrite E2.
  assert (E3 : bits (half_base k + i) 0 11 = i) by (unfold bits, half_base; destruct k; change (2 ^ 11) with 2048; change (2 ^ 0) with 1; rewrite Z.div_1_r; lia).
  unfold ThumbSpec.sext. rewrite E3. destruct k; reflexivity.
Qed.
Definition kind_of (i : option ThumbSpec.tinstr) : option half_kind :=
  match i with Some (ThumbSpec.TLongHigh _) => Some HHigh | Some (ThumbSpec.TLongLow _) => Some HLow | Some (ThumbSpec.TLongLowX _) => Some HLowX | _ => None end.
Lemma decode_half w k : 0 <= w < 65536 -> kind_of (ThumbSpec.thumb_decode w) = Some k -> w = half_base k + w mod 2048.
Proof.
  intros Hw D. unfold ThumbSpec.thumb_decode in D. cbv zeta in D.
  assert (R1 : 0 <= bits w 13 3 < 8) by (unfold bits; change (2 ^ 3) with 8; lia).
  assert (R2 : 0 <= bits w 11 2 < 4) by (unfold bits; change (2 ^ 2) with 4; lia).
  assert (Q : bits w 13 3 = 7 /\ bits w 11 2 = match k with HHigh => 2 | HLow => 3 | HLowX => 1 end).
  { destruct (range8 _ R1) as [E | [E | [E | [E | [E | [E | [E | E]]]]]]]; rewrite E in D.
    8: { split; [exact E |]. destruct (range4 _ R2) as [E' | [E' | [E' | E']]]; rewrite E' in D |- *; destruct k; try reflexivity; discriminate D. }
    all: exfalso; repeat match type of D with
      | kind_of (Some (if ?b then _ else _)) = _ => destruct b
      | kind_of (if ?b then _ else _) = _ => destruct b
      | kind_of (match ?z with Z0 => _ | Zpos _ => _ | Zneg _ => _ end) = _ => destruct z
      | kind_of (match ?z with xI _ => _ | xO _ => _ | xH => _ end) = _ => destruct z
      | _ => discriminate D
      end. }
  destruct Q as (Q1 & Q2). unfold bits in Q1, Q2. change (2 ^ 13) with 8192 in Q1. change (2 ^ 3) with 8 in Q1. change (2 ^ 11) with 2048 in Q2. change (2 ^ 2) with 4 in Q2.
  destruct k; unfold half_base; lia.
Qed.

(** Reading and building calls. *)
Lemma call_read w1 w2 at_ t0 : 0 <= w1 < 65536 -> 0 <= w2 < 65536 -> ThumbSpec.thumb_kind [w1; w2] = Some ThumbSpec.KCall ->
  ThumbSpec.thumb_target at_ [w1; w2] = Some t0 ->
  w1 = half_base HHigh + w1 mod 2048 /\ w2 = half_base HLow + w2 mod 2048 /\
  t0 = u32 (at_ + 4 + (if w1 mod 2048 <? 1024 then w1 mod 2048 else w1 mod 2048 - 2048) * 4096 + w2 mod 2048 * 2).
Proof.
  intros H1 H2 K T.
  assert (D : exists h l, ThumbSpec.thumb_decode w1 = Some (ThumbSpec.TLongHigh h) /\ ThumbSpec.thumb_decode w2 = Some (ThumbSpec.TLongLow l)).
  { unfold ThumbSpec.thumb_kind in K. destruct (ThumbSpec.thumb_decode w1) as [[] |]; try discriminate K. destruct (ThumbSpec.thumb_decode w2) as [[] |]; try discriminate K. eauto. }
  destruct D as (h & l & D1 & D2).
  assert (E1 : w1 = half_base HHigh + w1 mod 2048) by (apply decode_half; [exact H1 | rewrite D1; reflexivity]).
  assert (E2 : w2 = half_base HLow + w2 mod 2048) by (apply decode_half; [exact H2 | rewrite D2; reflexivity]).
  split; [exact E1 |]. split; [exact E2 |].
  unfold ThumbSpec.thumb_target in T. rewrite E1, E2 in T. rewrite !half_decode in T by lia. cbn [half_instr] in T. apply (f_equal (fun o => match o with Some v => v | None => t0 end)) in T. symmetry. exact T.
Qed.

Lemma land_f800 w : 0 <= w < 65536 -> Z.land w 63488 = w / 2048 * 2048.
Proof.
  intros H. pose proof (Z.ldiff_ones_r w 11 ltac:(lia)) as E. rewrite shiftr_div, shiftl_mul in E by lia. change (2 ^ 11) with 2048 in E.
  rewrite <- E. apply Z.bits_inj. intros i. rewrite Z.land_spec, Z.ldiff_spec.
  destruct (Z.ltb_spec i 0). { rewrite !Z.testbit_neg_r by lia. reflexivity. }
  destruct (Z.ltb_spec i 16).
  - assert (Q : Z.testbit 63488 i = negb (Z.testbit (Z.ones 11) i)).
    { rewrite Z.testbit_ones by lia. assert (i = 0 \/ i = 1 \/ i = 2 \/ i = 3 \/ i = 4 \/ i = 5 \/ i = 6 \/ i = 7 \/ i = 8 \/ i = 9 \/ i = 10 \/ i = 11 \/ i = 12 \/ i = 13 \/ i = 14 \/ i = 15) by lia.
      repeat match goal with O : _ \/ _ |- _ => destruct O as [-> | O] | O : i = _ |- _ => subst i end; reflexivity. }
    rewrite Q. reflexivity.
  - assert (Q : Z.testbit w i = false). { rewrite <- (Z.mod_small w (2 ^ 16)) by (change (2 ^ 16) with 65536; lia). apply Z.mod_pow2_bits_high. lia. }
    rewrite Q. reflexivity.
Qed.
Lemma thumb_addend f g : 0 <= f < 2048 -> 0 <= g < 2048 ->
  signExtend (Z.shiftl (Z.lor (Z.shiftl f 11) g) 1) 23 = (if f <? 1024 then f else f - 2048) * 4096 + g * 2.
Proof.
  intros Hf Hg. unfold signExtend. rewrite !shiftl_mul, shiftr_div by lia. rewrite lor_mul_pow2_small by (change (2 ^ 11) with 2048; lia).
  change (2 ^ 11) with 2048. change (2 ^ 1) with 2. change (2 ^ (32 - 23)) with 512. unfold s32. cbv zeta.
  destruct (f <? 1024) eqn:E; destruct (((f * 2048 + g) * 2 * 512) mod 4294967296 <? 2147483648) eqn:E'; lia.
Qed.
Lemma call_parts v : -2097152 <= v < 2097152 ->
  (if (v / 2048) mod 2048 <? 1024 then (v / 2048) mod 2048 else (v / 2048) mod 2048 - 2048) * 4096 + v mod 2048 * 2 = 2 * v.
Proof. intros H. destruct ((v / 2048) mod 2048 <? 1024) eqn:E; lia. Qed.
Lemma call_built k at_ f g : 0 <= f < 2048 -> 0 <= g < 2048 ->
  halves (Z.lor (Z.lor 61440 f) (Z.shiftl (Z.lor (half_base k) g) 16)) = [61440 + f; half_base k + g] /\
  0 <= Z.lor (Z.lor 61440 f) (Z.shiftl (Z.lor (half_base k) g) 16) < 4294967296 /\
  (k = HLow -> ThumbSpec.thumb_target at_ [61440 + f; half_base k + g] = Some (u32 (at_ + 4 + (if f <? 1024 then f else f - 2048) * 4096 + g * 2)) /\
               ThumbSpec.thumb_kind [61440 + f; half_base k + g] = Some ThumbSpec.KCall) /\
  (k = HLowX -> g mod 2 = 0 -> ThumbSpec.thumb_target at_ [61440 + f; half_base k + g] = Some (u32 ((at_ + 4 + (if f <? 1024 then f else f - 2048) * 4096 + g * 2) / 4 * 4)) /\
               ThumbSpec.thumb_kind [61440 + f; half_base k + g] = Some ThumbSpec.KCallX).
Proof.
  intros Hf Hg.
  assert (E1 : Z.lor 61440 f = 61440 + f) by (change 61440 with (30 * 2 ^ 11); apply lor_mul_pow2_small; change (2 ^ 11) with 2048; lia).
  assert (E2 : Z.lor (half_base k) g = half_base k + g).
  { assert (E : half_base k = half_base k / 2048 * 2 ^ 11) by (destruct k; reflexivity). rewrite E at 1 2. apply lor_mul_pow2_small; change (2 ^ 11) with 2048; lia. }
  assert (Hb : 0 <= half_base k <= 63488) by (destruct k; cbn; lia).
  assert (E3 : Z.lor (61440 + f) (Z.shiftl (half_base k + g) 16) = (half_base k + g) * 65536 + (61440 + f)).
  { rewrite shiftl_mul, Z.lor_comm by lia. rewrite lor_mul_pow2_small by (change (2 ^ 16) with 65536; lia). reflexivity. }
  rewrite E1, E2, E3. split; [unfold halves; f_equal; [lia | f_equal; lia] |]. split; [lia |].
  change 61440 with (half_base HHigh). unfold ThumbSpec.thumb_target, ThumbSpec.thumb_kind. rewrite !half_decode by assumption. split.
  - intros ->. cbn [half_instr]. split; reflexivity.
  - intros -> Ev. cbn [half_instr]. rewrite Ev. split; reflexivity.
Qed.

Lemma thumb_call_ok arm9 labels start fs out f p s x r a t t0 :
  imported (Arm arm9) labels start fs out f p s x -> In r (se_rels s) -> refers (Arm arm9) labels f p r a t ->
  r_type r = R_ARM_THM_CALL ->
  ThumbSpec.thumb_kind (halves (before f s r)) = Some ThumbSpec.KCall -> ThumbSpec.thumb_target 0 (halves (before f s r)) = Some t0 ->
  (x + r_offset r) mod (if t then 2 else 4) = 0 -> t0 mod (if t then 2 else 4) = 0 ->
  ThumbSpec.thumb_target (x + r_offset r) (halves (after f out start x r)) = Some (u32 (a + t0)) /\
  ThumbSpec.thumb_kind (halves (after f out start x r)) = Some (if t then ThumbSpec.KCall else ThumbSpec.KCallX) /\
  a mod (if t then 2 else 4) = 0 /\ (t = false -> arm9 = true).
Proof.
  intros Im I Rf T Kd Tg Al At. destruct (arm_reference _ _ _ _ _ _ _ _ _ _ _ _ Im I Rf) as (d & acts & Do & Db & Dp & Dt & Rg & O & G).
  { rewrite T. discriminate. }
  unfold arm_relocate in O. cbv zeta in O. rewrite T in O.
  change ((R_ARM_THM_CALL =? R_ARM_ABS32) || (R_ARM_THM_CALL =? R_ARM_TARGET1)) with false in O. change (R_ARM_THM_CALL =? R_ARM_THM_CALL) with true in O. cbv iota in O.
  apply do_ok in O. destruct O as (v & V & O). apply distance_ok in V.
  fold (is_thumb d) in O. rewrite Dt, Db, Dp in *. rewrite Do in V. set (b := before f s r) in *.
  rewrite shiftr_div, !land_65535 in O, V by lia. change (2 ^ 16) with 65536 in O, V. rewrite !land_2047 in O, V.
  assert (E2 : (b / 65536) mod 65536 = b / 65536) by lia. rewrite E2 in O, V.
  unfold halves in Kd, Tg. set (w1 := b mod 65536) in *. set (w2 := b / 65536) in *.
  assert (R1 : 0 <= w1 < 65536) by (unfold w1; lia). assert (R2 : 0 <= w2 < 65536) by (unfold w2; lia).
  destruct (call_read w1 w2 0 t0 R1 R2 Kd Tg) as (B1 & B2 & Et).
  rewrite thumb_addend in V by (apply Z.mod_pos_bound; lia).
  set (e := (if w1 mod 2048 <? 1024 then w1 mod 2048 else w1 mod 2048 - 2048) * 4096 + w2 mod 2048 * 2) in *.
  assert (Et' : t0 = u32 (4 + e)) by (rewrite Et; f_equal; unfold e; lia).
  assert (Ps : s32 (r_offset r + x) mod (if t then 2 else 4) = 0) by (pose proof (s32_mod (r_offset r + x)); destruct t; lia).
  pose proof (s32_mod a) as Am.
  assert (Ee : e mod (if t then 2 else 4) = 0). { rewrite Et' in At. unfold u32 in At. clear - At. destruct t; lia. }
  destruct (thumb_second arm9 (if t then 1 else 0) a (Z.land w2 63488)) as [second |] eqn:Es; [| apply ok2 in O; destruct O; discriminate].
  destruct (v =? -2147483648); [discriminate |]. destruct (Z.abs v >=? 4194304) eqn:Ev; [apply ok2 in O; destruct O; discriminate |].
  apply ok2 in O. destruct O as (<- & _). rewrite (G _ eq_refl). clear G. rewrite u32_idem.
  rewrite !land_f800 in * by assumption. rewrite !shiftr_div by lia. change (2 ^ 1) with 2. change (2 ^ 11) with 2048.
  assert (F1 : w1 / 2048 * 2048 = 61440) by (clear - B1 R1; clearbody w1; unfold half_base in B1; lia).
  assert (F2 : w2 / 2048 * 2048 = half_base HLow) by (clear - B2 R2; clearbody w2; unfold half_base in *; lia).
  rewrite F1. rewrite F2 in Es. clearbody e. clearbody w1 w2. clear E2 B1 B2 F1 F2.
  assert (Rv : -2097152 <= v / 2 < 2097152) by (clear - Ev; lia).
  assert (Rf1 : 0 <= (v / 2 / 2048) mod 2048 < 2048) by (apply Z.mod_pos_bound; lia). assert (Rf2 : 0 <= (v / 2) mod 2048 < 2048) by (apply Z.mod_pos_bound; lia).
  pose proof (call_parts (v / 2) Rv) as Cp.
  unfold thumb_second in Es. destruct t.
  - change (1 =? 1) with true in Es. cbv iota in Es.
    destruct (Z.eqb_spec (Z.rem a 2) 0) as [Ra | Ra]; cbn [negb] in Es; [| discriminate]. apply rem_mod0 in Ra; [| lia].
    assert (Es' : second = half_base HLow) by congruence. rewrite Es'. destruct (call_built HLow (x + r_offset r) _ _ Rf1 Rf2) as (C1 & C2 & C3 & _).
    rewrite u32_small by exact C2. rewrite C1. destruct (C3 eq_refl) as (C3a & C3b). split; [| split; [exact C3b | split; [exact Ra | discriminate]]].
    rewrite C3a. f_equal. rewrite <- Z.add_assoc, Cp. replace (2 * (v / 2)) with v.
    + apply (target_ok 4 _ e (r_offset r + x)); [rewrite V; reflexivity | apply Z.add_comm | exact Et'].
    + assert (v mod 2 = 0) by (clear - V Ee Ps Am Ra; rewrite V; generalize dependent (s32 a); generalize dependent (s32 (r_offset r + x)); intros; lia). clear - H. lia.
  - change (0 =? 1) with false in Es. cbv iota in Es. destruct arm9; cbn [negb] in Es; [| discriminate].
    destruct (Z.eqb_spec (Z.rem a 4) 0) as [Ra | Ra]; cbn [negb] in Es; [| discriminate]. apply rem_mod0 in Ra; [| lia].
    assert (Es' : second = half_base HLowX) by (unfold half_base; congruence). rewrite Es'. destruct (call_built HLowX (x + r_offset r) _ _ Rf1 Rf2) as (C1 & C2 & _ & C3).
    assert (V4 : v mod 4 = 0) by (clear - V Ee Ps Am Ra; rewrite V; generalize dependent (s32 a); generalize dependent (s32 (r_offset r + x)); intros; lia).
    rewrite u32_small by exact C2. rewrite C1. destruct (C3 eq_refl) as (C3a & C3b); [clear - V4; lia |]. split; [| split; [exact C3b | split; [exact Ra | reflexivity]]].
    rewrite C3a. f_equal. rewrite <- (Z.add_assoc (x + r_offset r + 4)), Cp. replace ((x + r_offset r + 4 + 2 * (v / 2)) / 4 * 4) with (x + r_offset r + 4 + v).
    + apply (target_ok 4 _ e (r_offset r + x)); [rewrite V; reflexivity | apply Z.add_comm | exact Et'].
    + clear - V4 Al. lia.
Qed.
