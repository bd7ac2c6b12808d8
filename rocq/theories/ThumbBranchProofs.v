(** Thumb forms with addresses, register lists, and branches. *)

Require Import ZArith Bool List String Ascii Lia.
Require Import ZifyBool.
Require Import Verif.Ints Verif.IntsLemmas Verif.BitFields Verif.Res Verif.ArmModel Verif.ThumbModel Verif.ThumbSpec Verif.ThumbProofs.
Import ListNotations.
Local Open Scope Z_scope.
Ltac Zify.zify_post_hook ::= Z.div_mod_to_equations.

(** Addresses. *)
Lemma clear_bit1 y : 0 <= y -> y mod 2 = 0 -> Z.land y 0xFFFFFFFD = u32 y / 4 * 4.
Proof.
  intros H0 H. 
  replace (u32 y / 4 * 4) with (Z.shiftl (Z.shiftr (u32 y) 2) 2) by (rewrite shiftr2, Z.shiftl_mul_pow2 by lia; reflexivity).
  unfold u32. change 4294967296 with (2 ^ 32).
  apply Z.bits_inj'. intros n Hn. rewrite Z.land_spec.
  destruct (Z.ltb_spec n 2).
  - rewrite Z.shiftl_spec_low by lia. assert (C : n = 0 \/ n = 1) by lia. destruct C as [-> | ->]; [|rewrite andb_comm; reflexivity].
    rewrite Z.bit0_odd, Zodd_mod, H. reflexivity.
  - rewrite Z.shiftl_spec, Z.shiftr_spec by lia. replace (n - 2 + 2) with n by lia.
    destruct (Z.ltb_spec n 32).
    + rewrite Z.mod_pow2_bits_low by lia. replace (Z.testbit 4294967293 n) with true; [apply andb_true_r|].
      assert (C : forallb (fun k => Z.testbit 4294967293 (Z.of_nat k)) (seq 2 30) = true) by (vm_compute; reflexivity).
      rewrite forallb_forall in C. symmetry. rewrite <- (Z2Nat.id n) by lia. apply C. apply in_seq. lia.
    + rewrite Z.mod_pow2_bits_high by lia. rewrite (testbit_small 4294967293 32) by lia. apply andb_false_r.
Qed.
Lemma s32_cong x y : x mod 4294967296 = y mod 4294967296 -> s32 x = s32 y.
Proof. intros H. unfold s32. rewrite H. reflexivity. Qed.
Lemma s32_sub x y : s32 (s32 x - y) = s32 (x - y).
Proof. apply s32_cong. rewrite Zminus_mod, s32_mod, <- Zminus_mod. reflexivity. Qed.
Lemma s32_mod4 x : s32 x mod 4 = x mod 4.
Proof. pose proof (s32_mod x) as H. lia. Qed.

Lemma form_address f name mask i ramPos z pool : parsed name mask f i -> f = FLoadAddress \/ f = FAddress ->
  0 <= ramPos < 2 ^ 32 -> ramPos mod 2 = 0 ->
  result_ok (thumb_assemble i ramPos (IInt z) pool) (thumb_meaning f (operands_of i) z ramPos).
Proof.
  intros P Hf Hr He. 
  assert (Hm : s32 (s32 z - Z.land (ramPos + 4) 4294967293) = s32 (z - aligned_pc ramPos)).
  { rewrite s32_sub. unfold aligned_pc. rewrite clear_bit1 by lia. reflexivity. }
  destruct Hf as [-> | ->]; start P R D; open_form D; rewrite land3, Hm, shiftr2, s32_mod4; cbn [thumb_meaning];
  (assert (E4 : s32 (z - aligned_pc ramPos) mod 4 = z mod 4) by (rewrite s32_mod4; unfold aligned_pc; lia));
  set (d := s32 (z - aligned_pc ramPos)) in *; clearbody d;
  (destruct (Z.eqb_spec (z mod 4) 0) as [E0|E0]; cbn [negb rbind]; [|refused]; test; [refused|accepted]);
  (assert (Ez : d = 4 * (d / 4)) by lia); set (k := d / 4) in *; (assert (0 <= k < 256) by lia); clearbody k; rewrite Ez; clear Ez E E0 E4 Hm;
    generalize dependent (h_rd i); intros rd Hd; enum2 k 256%nat rd 8%nat.
Qed.
Lemma form_pool name mask i ramPos v pool : parsed name mask FLoadPool i -> v <> IBad ->
  0 <= ramPos < 2 ^ 32 -> ramPos mod 2 = 0 -> pool mod 4 = 0 ->
  result_ok (thumb_assemble i ramPos v pool) (thumb_meaning FLoadPool (operands_of i) pool ramPos).
Proof.
  intros P Hv Hr He Hp. 
  assert (Hm : s32 (s32 pool - Z.land (ramPos + 4) 4294967293) = s32 (pool - aligned_pc ramPos)).
  { rewrite s32_sub. unfold aligned_pc. rewrite clear_bit1 by lia. reflexivity. }
  assert (E4 : s32 (pool - aligned_pc ramPos) mod 4 = pool mod 4) by (rewrite s32_mod4; unfold aligned_pc; lia).
  start P R D; destruct v; try congruence; open_form D; unfold thumb_pool_offset; rewrite Hm, shiftr2; cbn [thumb_meaning];
  set (d := s32 (pool - aligned_pc ramPos)) in *; clearbody d;
  (test; [refused|accepted]);
  (assert (Ez : d = 4 * (d / 4)) by lia); set (k := d / 4) in *; (assert (0 <= k < 256) by lia); clearbody k; rewrite Ez; clear Ez E E4 Hm;
    generalize dependent (h_rd i); intros rd Hd; enum2 k 256%nat rd 8%nat.
Qed.

(** Register lists. *)
Definition words (P : Z -> bool) : bool := all 256 (fun a => all 256 (fun b => P (a * 256 + b))).
Lemma words_spec P : words P = true -> forall l, 0 <= l < 65536 -> P l = true.
Proof.
  intros E l H. replace l with (l / 256 * 256 + l mod 256) by lia.
  assert (0 <= l / 256 < 256) by lia. assert (0 <= l mod 256 < 256) by lia.
  unfold words in E. pose proof (all_spec _ _ E (l / 256) ltac:(assumption)) as E1. cbn beta in E1.
  exact (all_spec _ _ E1 (l mod 256) ltac:(assumption)).
Qed.
Lemma form_list f name mask i ramPos v pool m : parsed name mask f i -> is_list f = true ->
  thumb_meaning f (operands_of i) 0 ramPos = Some m ->
  exists w, thumb_assemble i ramPos v pool = ROk [w] /\ thumb_decode w = Some m.
Proof.
  intros P L. destruct f; try discriminate L; start P R D; cbn [thumb_meaning operands_of tlist td]; unfold when;
    (match goal with |- context [if ?b then _ else _] => destruct b eqn:E end; [|discriminate]); intros Q; injection Q as <-; apply Z.eqb_eq in E;
    open_form D; unfold operands_of; cbn [tlist td rbind]; eexists; (split; [reflexivity|]).
  all: set (l := h_rlist i) in *; clearbody l.
  - assert (A : words (fun l => negb (Z.land l (Z.lnot 0x40FF) =? 0) ||
       same (thumb_decode (u16 (Z.lor (if negb (Z.land l 49152 =? 0) then Z.lor 46080 (Z.shiftl 1 8) else 46080) (Z.land l 255)))) (Some (TPush (Z.land l 255) (flag l 14)))) = true)
      by (vm_compute; reflexivity).
    pose proof (words_spec _ A l ltac:(assumption)) as B. cbn beta in B. rewrite E in B. cbn [Z.eqb negb orb] in B. apply same_eq. exact B.
  - assert (A : words (fun l => negb (Z.land l (Z.lnot 0x80FF) =? 0) ||
       same (thumb_decode (u16 (Z.lor (if negb (Z.land l 49152 =? 0) then Z.lor 48128 (Z.shiftl 1 8) else 48128) (Z.land l 255)))) (Some (TPop (Z.land l 255) (flag l 15)))) = true)
      by (vm_compute; reflexivity).
    pose proof (words_spec _ A l ltac:(assumption)) as B. cbn beta in B. rewrite E in B. cbn [Z.eqb negb orb] in B. apply same_eq. exact B.
  - assert (A : words (fun l => negb (Z.land l (Z.lnot 0xFF) =? 0) || (l <? 256)) = true) by (vm_compute; reflexivity).
    pose proof (words_spec _ A l ltac:(assumption)) as B. cbn beta in B. rewrite E in B. cbn [Z.eqb negb orb] in B. clear A E.
    generalize dependent (h_rd i). intros rd Hd. enum2 l 256%nat rd 8%nat.
  - assert (A : words (fun l => negb (Z.land l (Z.lnot 0xFF) =? 0) || (l <? 256)) = true) by (vm_compute; reflexivity).
    pose proof (words_spec _ A l ltac:(assumption)) as B. cbn beta in B. rewrite E in B. cbn [Z.eqb negb orb] in B. clear A E.
    generalize dependent (h_rd i). intros rd Hd. enum2 l 256%nat rd 8%nat.
Qed.

(** Branches. *)
Lemma dec_branch_if c k : 0 <= c < 14 -> 0 <= k < 256 ->
  thumb_decode (u16 (Z.lor (0xD000 + c * 0x100) k)) = Some (TBranchIf c (sext k 8 * 2)).
Proof. intros H1 H2. enum2 c 14%nat k 256%nat. Qed.
Definition halves (P : Z -> bool) : bool := all 8 (fun a => all 256 (fun b => P (a * 256 + b))).
Lemma halves_eq (f g : Z -> option tinstr) : halves (fun k => same (f k) (g k)) = true -> forall k, 0 <= k < 2048 -> f k = g k.
Proof.
  intros E k H. apply same_eq. replace k with (k / 256 * 256 + k mod 256) by lia.
  assert (0 <= k / 256 < 8) by lia. assert (0 <= k mod 256 < 256) by lia.
  unfold halves in E. pose proof (all_spec _ _ E (k / 256) ltac:(assumption)) as E1. cbn beta in E1.
  exact (all_spec _ _ E1 (k mod 256) ltac:(assumption)).
Qed.
Lemma dec_branch k : 0 <= k < 2048 -> thumb_decode (u16 (Z.lor 0xE000 k)) = Some (TBranch (sext k 11 * 2)).
Proof. apply (halves_eq (fun k => thumb_decode (u16 (Z.lor 0xE000 k))) (fun k => Some (TBranch (sext k 11 * 2)))). vm_compute. reflexivity. Qed.
Lemma dec_high k : 0 <= k < 2048 -> thumb_decode (u16 (Z.lor 0xF000 k)) = Some (TLongHigh (sext k 11)).
Proof. apply (halves_eq (fun k => thumb_decode (u16 (Z.lor 0xF000 k))) (fun k => Some (TLongHigh (sext k 11)))). vm_compute. reflexivity. Qed.
Lemma dec_low k : 0 <= k < 2048 -> thumb_decode (u16 (Z.lor 0xF800 k)) = Some (TLongLow k).
Proof. apply (halves_eq (fun k => thumb_decode (u16 (Z.lor 0xF800 k))) (fun k => Some (TLongLow k))). vm_compute. reflexivity. Qed.
Lemma dec_lowx k : 0 <= k < 2048 -> thumb_decode (u16 (Z.lor 0xE800 k)) = Some (TLongLowX k).
Proof. apply (halves_eq (fun k => thumb_decode (u16 (Z.lor 0xE800 k))) (fun k => Some (TLongLowX k))). vm_compute. reflexivity. Qed.

Lemma mask_pow x n : 0 <= n -> Z.land x (2 ^ n - 1) = x mod 2 ^ n.
Proof. intros H. rewrite Z.sub_1_r, <- Z.ones_equiv. apply Z.land_ones. exact H. Qed.
Lemma sext8 n : -128 <= n < 128 -> sext (n mod 256) 8 = n.
Proof. intros H. unfold sext, bits. change (2 ^ 0) with 1. change (2 ^ 8) with 256. change (2 ^ (8 - 1)) with 128. rewrite Z.div_1_r. destruct (_ <? 128) eqn:E; lia. Qed.
Lemma sext11 n : -1024 <= n < 1024 -> sext (n mod 2048) 11 = n.
Proof. intros H. unfold sext, bits. change (2 ^ 0) with 1. change (2 ^ 11) with 2048. change (2 ^ (11 - 1)) with 1024. rewrite Z.div_1_r. destruct (_ <? 1024) eqn:E; lia. Qed.
Lemma u32_cong x y : x mod 4294967296 = y mod 4294967296 -> u32 x = u32 y.
Proof. intros H. unfold u32. exact H. Qed.

(** The distance as the code computes it. *)
Lemma distance z a : s32 (s32 z - a - 4) = s32 (z - a - 4).
Proof. replace (s32 z - a - 4) with (s32 z - (a + 4)) by ring. replace (z - a - 4) with (z - (a + 4)) by ring. apply s32_sub. Qed.
Lemma reached z a d : d = s32 (z - a - 4) -> u32 (a + 4 + d) = u32 z.
Proof.
  intros ->. apply u32_cong. rewrite Zplus_mod, s32_mod, <- Zplus_mod. f_equal. ring.
Qed.

Lemma branch_short f name mask i ramPos z pool : parsed name mask f i -> (exists c, f = FBranchIf c) \/ f = FBranch ->
  ramPos mod 2 = 0 ->
  match thumb_assemble i ramPos (IInt z) pool with
  | ROk ws => thumb_target ramPos ws = Some (u32 z) /\ thumb_kind ws = branch_kind f
  | RErr => thumb_branch f z ramPos = false
  | RUb => False
  end.
Proof.
  intros P Hf He. assert (Ho : s32 (z - ramPos - 4) mod 2 = z mod 2) by (pose proof (s32_mod (z - ramPos - 4)); lia).
  destruct Hf as [[c ->] | ->]; start P R D.
  - assert (F : form_ok (FBranchIf c) = true) by tauto. cbn [form_ok] in F. assert (Hc : 0 <= c < 14) by lia. clear F.
    open_form D; rewrite land1, shiftr1, distance; unfold thumb_branch, between.
    assert (s32 z mod 2 = z mod 2) as -> by (pose proof (s32_mod z); lia).
    pose proof (reached z ramPos _ eq_refl) as T. set (d := s32 (z - ramPos - 4)) in *. clearbody d.
    destruct (Z.eqb_spec (z mod 2) 0) as [E0|E0]; cbn [negb]; [|cbn [rbind]; lia].
    destruct ((d >=? 256) || (d <? 0 - 256)) eqn:E; cbn [rbind]; [lia|]. cbn [need y_imm rbind y_newenc].
    change (256 - 1) with (2 ^ 8 - 1). rewrite mask_pow by lia. change (2 ^ 8) with 256.
    assert (K : 0 <= (d / 2) mod 256 < 256) by lia. cbn [thumb_target thumb_kind branch_kind].
    rewrite (dec_branch_if c _ Hc K), sext8 by lia. split; [rewrite <- T; do 2 f_equal; lia|reflexivity].
  - open_form D; rewrite land1, shiftr1, distance; unfold thumb_branch, between.
    assert (s32 z mod 2 = z mod 2) as -> by (pose proof (s32_mod z); lia).
    pose proof (reached z ramPos _ eq_refl) as T. set (d := s32 (z - ramPos - 4)) in *. clearbody d.
    destruct (Z.eqb_spec (z mod 2) 0) as [E0|E0]; cbn [negb]; [|cbn [rbind]; lia].
    destruct ((d >=? 2048) || (d <? 0 - 2048)) eqn:E; cbn [rbind]; [lia|]. cbn [need y_imm rbind y_newenc].
    change (2048 - 1) with (2 ^ 11 - 1). rewrite mask_pow by lia. change (2 ^ 11) with 2048.
    assert (K : 0 <= (d / 2) mod 2048 < 2048) by lia. cbn [thumb_target thumb_kind branch_kind].
    rewrite (dec_branch _ K), sext11 by lia. split; [rewrite <- T; do 2 f_equal; lia|reflexivity].
Qed.

Lemma long_halves n : -2097152 <= n < 2097152 ->
  Z.land (Z.shiftr (Z.land n (4194304 - 1)) 11) 2047 = (n / 2048) mod 2048 /\ Z.land (Z.land n (4194304 - 1)) 2047 = n mod 2048.
Proof.
  intros H. change (4194304 - 1) with (2 ^ 22 - 1). rewrite mask_pow by lia. change 2047 with (2 ^ 11 - 1). rewrite !mask_pow by lia.
  rewrite Z.shiftr_div_pow2 by lia. change (2 ^ 22) with 4194304. change (2 ^ 11) with 2048. lia.
Qed.
Lemma branch_long name mask i ramPos z pool : parsed name mask FLong i -> ramPos mod 2 = 0 ->
  match thumb_assemble i ramPos (IInt z) pool with
  | ROk ws => thumb_target ramPos ws = Some (u32 z) /\ thumb_kind ws = Some KCall
  | RErr => thumb_branch FLong z ramPos = false
  | RUb => False
  end.
Proof.
  intros P He. assert (Ho : s32 (z - ramPos - 4) mod 2 = z mod 2) by (pose proof (s32_mod (z - ramPos - 4)); lia).
  start P R D. open_form D; rewrite land1, shiftr1, distance; unfold thumb_branch, between.
  assert (s32 z mod 2 = z mod 2) as -> by (pose proof (s32_mod z); lia).
  pose proof (reached z ramPos _ eq_refl) as T. set (d := s32 (z - ramPos - 4)) in *. clearbody d.
  destruct (Z.eqb_spec (z mod 2) 0) as [E0|E0]; cbn [negb]; [|cbn [rbind]; lia].
  destruct ((d >=? 4194304) || (d <? 0 - 4194304)) eqn:E; cbn [rbind]; [lia|]. cbn [need y_imm rbind y_newenc].
  destruct (long_halves (d / 2)) as [-> ->]; [lia|].
  assert (K1 : 0 <= d / 2 / 2048 mod 2048 < 2048) by lia. assert (K2 : 0 <= d / 2 mod 2048 < 2048) by lia. cbn [thumb_target thumb_kind].
  rewrite (dec_high _ K1), (dec_low _ K2), sext11 by lia. split; [rewrite <- T; do 2 f_equal; lia|reflexivity].
Qed.
Lemma branch_longx name mask i ramPos z pool : parsed name mask FLongX i -> 0 <= ramPos < 2 ^ 32 -> ramPos mod 2 = 0 ->
  match thumb_assemble i ramPos (IInt z) pool with
  | ROk ws => (s32 (z - ramPos - 4) <> 0x3FFFFE -> thumb_target ramPos ws = Some (u32 z)) /\ thumb_kind ws = Some KCallX
  | RErr => thumb_branch FLongX z ramPos = false
  | RUb => False
  end.
Proof.
  intros P Hr He. assert (Ho : s32 (z - ramPos - 4) mod 4 = (z - ramPos - 4) mod 4) by (pose proof (s32_mod (z - ramPos - 4)); lia).
  start P R D. open_form D; rewrite land3, shiftr1, distance, land1; unfold thumb_branch, between.
  assert (s32 z mod 4 = z mod 4) as -> by (pose proof (s32_mod z); lia).
  assert (E4 : s32 (z - aligned_pc ramPos) mod 4 = z mod 4) by (rewrite s32_mod4; unfold aligned_pc; lia).
  pose proof (reached z ramPos _ eq_refl) as T.
  assert (A : -4194304 <= s32 (z - aligned_pc ramPos) <= 4194300 -> s32 (z - ramPos - 4) = s32 (z - aligned_pc ramPos) - (ramPos mod 4)).
  { intros Hd. rewrite <- (s32_small (s32 (z - aligned_pc ramPos) - ramPos mod 4)) by lia. rewrite s32_sub. apply s32_cong.
    unfold aligned_pc, u32. clear. lia. }
  set (d := s32 (z - ramPos - 4)) in *. set (d' := s32 (z - aligned_pc ramPos)) in *. clearbody d d'.
  destruct (Z.eqb_spec (z mod 4) 0) as [E0|E0]; cbn [negb]; [|cbn [rbind]; lia].
  destruct ((d >=? 4194304) || (d <? 0 - 4194304)) eqn:E; cbn [rbind]; [lia|]. cbn [need y_imm rbind y_newenc].
  set (n := d / 2 + d / 2 mod 2) in *.
  assert (K1 : 0 <= Z.land (Z.shiftr (Z.land n (4194304 - 1)) 11) 2047 < 2048) by (change 2047 with (2 ^ 11 - 1); rewrite mask_pow by lia; lia).
  assert (K2 : 0 <= Z.land (Z.land n (4194304 - 1)) 2047 < 2048) by (change 2047 with (2 ^ 11 - 1); rewrite mask_pow by lia; lia).
  cbn [thumb_target thumb_kind]. rewrite (dec_high _ K1), (dec_lowx _ K2). split; [|reflexivity]. intros Hd.
  assert (Hn : -2097152 <= n < 2097152) by lia.
  destruct (long_halves n Hn) as [-> ->]. rewrite sext11 by lia.
  assert (n mod 2 = 0) by lia. replace (n mod 2048 mod 2 =? 0) with true by (symmetry; lia).
  replace (ramPos + 4 + n / 2048 * 4096 + n mod 2048 * 2) with (ramPos + 4 + 2 * n) by lia.
  f_equal.
  assert (Q : (ramPos + 4 + 2 * n) / 4 * 4 = ramPos + 4 + d) by lia.
  rewrite Q. exact T.
Qed.

Lemma branches f name mask i ramPos z pool : parsed name mask f i -> is_branch f = true ->
  0 <= ramPos < 2 ^ 32 -> ramPos mod 2 = 0 -> (f = FLongX -> s32 (z - ramPos - 4) <> 0x3FFFFE) ->
  match thumb_assemble i ramPos (IInt z) pool with
  | ROk ws => thumb_target ramPos ws = Some (u32 z) /\ thumb_kind ws = branch_kind f
  | RErr => thumb_branch f z ramPos = false
  | RUb => False
  end.
Proof.
  intros P B Hr He Hx. destruct f; try discriminate B.
  - apply (branch_short _ name mask); eauto.
  - apply (branch_short _ name mask); eauto.
  - apply (branch_long name mask); eauto.
  - pose proof (branch_longx name mask i ramPos z pool P Hr He) as E. destruct (thumb_assemble i ramPos (IInt z) pool); [|exact E|exact E].
    destruct E as [E1 E2]. auto.
Qed.

Lemma others f name mask i ramPos z pool : parsed name mask f i -> is_branch f = false -> is_list f = false ->
  f <> FLoadPc0 -> f <> FLoadPool -> is_int32 z -> 0 <= ramPos < 2 ^ 32 -> ramPos mod 2 = 0 ->
  result_ok (thumb_assemble i ramPos (IInt z) pool) (thumb_meaning f (operands_of i) z ramPos).
Proof.
  intros P B L N1 N2 Hz Hr He.
  destruct (has_number f) eqn:N.
  - destruct f; try discriminate N; try discriminate B; try congruence.
    + now apply (form_shift op two name mask).
    + now apply (form_addimm sub name mask).
    + now apply (form_imm op name mask).
    + apply (form_word _ name mask); auto.
    + apply (form_address _ name mask); auto.
    + now apply (form_memimm load size name mask).
    + apply (form_word _ name mask); auto. destruct load; auto.
    + apply (form_word _ name mask); auto.
    + apply (form_address _ name mask); auto.
    + apply (form_word _ name mask); auto 6.
    + now apply (form_adjust sub name mask).
    + apply (form_small _ name mask); auto.
    + apply (form_small _ name mask); auto.
    + apply (form_small _ name mask); auto.
  - pose proof (form_plain f name mask i ramPos (IInt z) pool P N L N1) as E.
    replace (thumb_meaning f (operands_of i) z ramPos) with (thumb_meaning f (operands_of i) 0 ramPos); [exact E|].
    destruct f; try discriminate N; try discriminate L; reflexivity.
Qed.

Lemma list_unsigned rlist : 0 <= rlist < 65536 ->
  list_accepted false 255 64 rlist = (Z.land rlist (Z.lnot 0x40FF) =? 0).
Proof.
  intros H. apply Bool.eqb_prop. revert rlist H. apply (words_spec (fun rlist =>
    Bool.eqb (list_accepted false 255 64 rlist) (Z.land rlist (Z.lnot 0x40FF) =? 0))). vm_compute. reflexivity.
Qed.

Definition long_row (o : thumb_opcode) : bool := Bool.eqb (thas o THUMB_LONG) (thas o THUMB_LONG && (t_type o =? THUMB_TYPE19)).
Lemma long_rows : forallb long_row ThumbOpcodes = true.
Proof. vm_compute. reflexivity. Qed.
Lemma thumb_size i ramPos v pool ws : In (h_op i) ThumbOpcodes ->
  thumb_assemble i ramPos v pool = ROk ws ->
  2 * Z.of_nat (List.length ws) = if thas (h_op i) THUMB_LONG then 4 else 2.
Proof.
  intros Hin. pose proof long_rows as A. rewrite forallb_forall in A. specialize (A _ Hin). unfold long_row in A. apply eqb_prop in A.
  unfold thumb_assemble. destruct (thumb_validate i ramPos v pool) as [s| |]; cbn [rbind]; [|discriminate|discriminate].
  unfold thumb_encode. destruct (thas (h_op i) THUMB_LONG) eqn:EL.
  - cbn [andb] in A. rewrite <- A. destruct (y_imm s); cbn [need rbind]; [|discriminate]. intros E. injection E as <-. reflexivity.
  - clear A.
    repeat match goal with
    | |- (if ?b then _ else _) = _ -> _ => destruct b
    | |- context [need ?x] => destruct x; cbn [need rbind]
    | |- (do _ <- (if ?b then _ else _); _) = _ -> _ => destruct b
    | |- ROk _ = _ -> _ => intros E; injection E as <-; reflexivity
    | |- _ => discriminate
    | |- _ => progress cbn [rbind]
    end.
Qed.
