(** ARM words decode to the instructions that the source lines ask for: addresses and constants. *)

Require Import ZArith Lia Bool List String Ascii.
Require Import ZifyBool Btauto.
Require Import Verif.Ints Verif.IntsLemmas Verif.BitFields Verif.Res Verif.ArmModel Verif.ArmLineModel Verif.ArmSpec
  Verif.ArmIface Verif.ArmProofs Verif.ArmImmProofs Verif.ArmShiftProofs Verif.ArmWordSpec Verif.ArmRowProofs Verif.ArmWordIface
  Verif.ArmWordProofs Verif.ArmWordProofs2 Verif.ArmWordProofs3 Verif.ArmWordProofs4.
Import ListNotations.
Local Open Scope Z_scope.
Ltac Zify.zify_post_hook ::= Z.div_mod_to_equations.

(** * Relative to the program counter *)

Definition pc_word (l : bool) (c vd : Z) (up : bool) : Z :=
  let x := Z.lor (Z.lor (Z.lor 0x058f0000 (Z.shiftl (b2z l) 20)) (Z.shiftl c 28)) (Z.shiftl vd 12) in
  if up then x else clear_bit x 23.
Lemma pc_fields l c vd up n addr : 0 <= c < 15 -> 0 <= vd < 16 -> 0 <= n < 4096 ->
  arm_decode addr (u32 (Z.lor (pc_word l c vd up) n))
  = Some (AMem c l false IxOffset 15 vd (OffImm (signed_off up n))).
Proof.
  intros Hc Hvd Hn. set (W := u32 _).
  assert (F : bits W 28 4 = c /\ bits W 25 3 = 2 /\ bits W 24 1 = 1 /\ bits W 23 1 = b2z up /\ bits W 22 1 = 0 /\
    bits W 21 1 = 0 /\ bits W 20 1 = b2z l /\ bits W 16 4 = 15 /\ bits W 12 4 = vd /\ bits W 0 12 = n).
  { unfold W, pc_word. bool_ranges. destruct up; fields; auto 20. }
  decompose [and] F. clear F. clearbody W.
  unfold arm_decode, flag. repeat match goal with H : bits W _ _ = _ |- _ => rewrite H end.
  rewrite !b2z_eqb, (proj2 (Z.eqb_neq c 15)) by lia. reflexivity.
Qed.
Lemma pc_reaches addr z : u32 (addr + 8 + pc_distance addr z) = u32 z.
Proof. unfold pc_distance. pose proof (s32_mod (z - addr - 8)). unfold u32. lia. Qed.
(** The word for a distance [d]. *)
Lemma pc_encode l c vd d addr enc : 0 <= c < 15 -> 0 <= vd < 16 -> Z.abs d < 4096 ->
  enc = pc_word l c vd true ->
  exists w, (if d <? 0 then do a <- abs_int d; ROk (Z.lor (clear_bit enc 23) a) else ROk (Z.lor enc d)) = ROk w /\
    arm_decode addr (u32 w) = Some (AMem c l false IxOffset 15 vd (OffImm d)).
Proof.
  intros Hc Hvd Hd ->. destruct (Z.ltb_spec d 0).
  - unfold abs_int. destruct (Z.eqb_spec d (-2147483648)); [lia|]. cbn [rbind]. eexists. split; [reflexivity|].
    pose proof (pc_fields l c vd false (Z.abs d) addr Hc Hvd ltac:(lia)) as D. unfold pc_word in *. rewrite D.
    unfold signed_off. do 3 f_equal. lia.
  - eexists. split; [reflexivity|]. apply (pc_fields l c vd true d addr Hc Hvd). lia.
Qed.
Lemma word_mem_abs i e addr pool q l : word_hyps i e addr (FMemAbs l) q -> word_claim i e addr pool (FMemAbs l) q.
Proof.
  intros H. open_hyps H. settled. row0.
  destruct (imm_word_s32 _ _ Qimm) as (RQ & _).
  unfold word_claim, arm_emit, arm_validate. use_has HF. rewrite Hus. types.
  pose proof (check_pc i addr (e_imm e) (q_imm q) 12 Qimm Hbl ltac:(lia)
    ltac:(has_by HF ARM_SHIFT) ltac:(has_by HF ARM_POOL) ltac:(has_by HF ARM_BRANCH) ltac:(has_by HF ARM_ABSIMM)) as V.
  change (2 ^ 12) with 4096 in V.
  destruct (validate_imm i addr (e_imm e)) as [r| |]; cbn [rbind].
  - destruct V as (Vi & Va & ->). cbn [im_shift im_imm im_neg im_enc im_type im_pool].
    unfold arm_encode. cbn [o_pool o_newenc o_newtype o_final o_rn o_rm o_shift_amount o_imm o_negative rbind].
    use_has HF. rewrite Hty, Henc, Hs, Hwb. types. unfold bitf.
    destruct (pc_encode l (i_c i) (i_rd i) (pc_distance addr (q_imm q)) addr _ Wc Wrd Va eq_refl) as (w & Ew & D).
    unfold pc_word in Ew. rewrite Ew. cbn [rbind].
    split; [split; [exact Vi|exact Va]|]. eexists. split; [exact D|]. half_finish.
    rewrite pc_reaches. apply u32_small. exact RQ.
  - exact V.
  - exact V.
Qed.
Lemma lor_15 x : 0 <= x < 16 -> Z.lor 15 x = 15.
Proof.
  intros H. assert (E : x = 0 \/ x = 1 \/ x = 2 \/ x = 3 \/ x = 4 \/ x = 5 \/ x = 6 \/ x = 7 \/ x = 8 \/ x = 9 \/ x = 10 \/
    x = 11 \/ x = 12 \/ x = 13 \/ x = 14 \/ x = 15) by lia.
  repeat (destruct E as [->|E]; [reflexivity|]). subst. reflexivity.
Qed.
Definition pch_word (c vn vd : Z) (up : bool) : Z :=
  let x := Z.lor (Z.lor (Z.lor 0x01cf00b0 (Z.shiftl c 28)) (Z.shiftl vn 16)) (Z.shiftl vd 12) in
  if up then x else clear_bit x 23.
Lemma pch_fields c vn vd up hi lo addr : 0 <= c < 15 -> 0 <= vn < 16 -> 0 <= vd < 16 -> 0 <= hi < 16 -> 0 <= lo < 16 ->
  arm_decode addr (u32 (Z.lor (Z.lor (pch_word c vn vd up) (Z.shiftl hi 8)) lo))
  = Some (AHalf c HStrh IxOffset 15 vd (OffImm (signed_off up (16 * hi + lo)))).
Proof.
  intros Hc Hvn Hvd Hhi Hlo. set (W := u32 _).
  assert (F : bits W 28 4 = c /\ bits W 25 3 = 0 /\ bits W 4 1 = 1 /\ bits W 7 1 = 1 /\ bits W 5 2 = 1 /\
    bits W 20 1 = 0 /\ bits W 24 1 = 1 /\ bits W 21 1 = 0 /\
    bits W 22 1 = 1 /\ bits W 23 1 = b2z up /\ bits W 16 4 = 15 /\ bits W 12 4 = vd /\
    bits W 8 4 = hi /\ bits W 0 4 = lo).
  { unfold W, pch_word. destruct up; fields; rewrite lor_15 by lia; auto 20. }
  decompose [and] F. clear F. clearbody W.
  unfold arm_decode, decode_multiply, flag.
  repeat match goal with H : bits W _ _ = _ |- _ => rewrite H end. rewrite !b2z_eqb.
  rewrite (proj2 (Z.eqb_neq c 15)) by lia. reflexivity.
Qed.
Lemma word_half_abs i e addr pool q : word_hyps i e addr FHalfAbs q -> word_claim i e addr pool FHalfAbs q.
Proof.
  intros H. open_hyps H. settled. row0.
  destruct (imm_word_s32 _ _ Qimm) as (RQ & _).
  unfold word_claim, arm_emit, arm_validate. use_has HF. rewrite Hus. types.
  pose proof (check_pc i addr (e_imm e) (q_imm q) 8 Qimm Hbl ltac:(lia)
    ltac:(has_by HF ARM_SHIFT) ltac:(has_by HF ARM_POOL) ltac:(has_by HF ARM_BRANCH) ltac:(has_by HF ARM_ABSIMM)) as V.
  change (2 ^ 8) with 256 in V.
  destruct (validate_imm i addr (e_imm e)) as [r| |]; cbn [rbind].
  - destruct V as (Vi & Va & ->). cbn [im_shift im_imm im_neg im_enc im_type im_pool].
    unfold arm_encode. cbn [o_pool o_newenc o_newtype o_final o_rn o_rm o_shift_amount o_imm o_negative rbind].
    use_has HF. rewrite Hty, Henc, Hs, Hwb. types.
    set (d := pc_distance addr (q_imm q)) in *.
    pose proof (split_byte (Z.abs d) ltac:(lia)) as (hi & lo & Hhi & Hlo & En & El & Eh).
    pose proof (pch_fields (i_c i) (i_rn i) (i_rd i) (negb (d <? 0)) hi lo addr Wc Wrn Wrd Hhi Hlo) as D.
    rewrite <- En, signed_abs in D. unfold pch_word in D.
    destruct (Z.ltb_spec d 0); cbn [negb] in D.
    + unfold abs_int. replace (d =? -2147483648) with false by lia. cbn [rbind]. rewrite El, Eh.
      split; [split; [exact Vi|exact Va]|]. eexists. split; [exact D|]. half_finish.
      unfold d. rewrite pc_reaches. apply u32_small. exact RQ.
    + cbn [rbind]. replace (Z.abs d) with d in * by lia. rewrite El, Eh.
      split; [split; [exact Vi|fold d; clear - Va H; lia]|]. eexists. split; [exact D|]. half_finish.
      unfold d. rewrite pc_reaches. apply u32_small. exact RQ.
  - exact V.
  - exact V.
Qed.

(** * Rotated constants *)

Definition dpi_word (opc c vn vd : Z) (sb : bool) (r b : Z) : Z :=
  Z.lor (Z.lor (Z.lor (Z.lor (Z.lor (Z.lor (Z.lor 0x02000000 (Z.shiftl opc 21)) (Z.shiftl vn 16)) (Z.shiftl c 28)) (Z.shiftl (b2z sb) 20))
    (Z.shiftl vd 12)) (Z.shiftl (2 * r) 7)) b.
Lemma dpi_fields opc c vn vd sb r b addr w : 0 <= c < 15 -> 0 <= vn < 16 -> 0 <= vd < 16 -> 0 <= r < 16 -> 0 <= b < 256 ->
  0 <= opc < 16 -> dp_writes opc = true -> w = dpi_word opc c vn vd sb r b ->
  arm_decode addr (u32 w) = Some (ADp c opc sb vn vd (OpImm (ror32 b (2 * r)))).
Proof.
  intros Hc Hvn Hvd Hr Hb Ho Hw ->.
  rewrite (decode_of_dp_imm addr _ (mkDpImm c opc sb vn vd (ror32 b (2 * r)))); [reflexivity| |].
  - unfold dpi_word, decode_dp_imm. replace (Z.shiftl (2 * r) 7) with (Z.shiftl r 8) by (rewrite !shiftl_mul by lia; lia).
    bool_ranges. fields. rewrite b2z_eqb. cbn [Z.eqb Pos.eqb]. do 3 f_equal.
    rewrite shiftl_mul by lia. rewrite lor_mul_pow2_small by lia. apply arm_expand_imm_fields; lia.
  - split; cbn [dp_cond dp_opc dp_s]; [lia|]. intros. unfold dp_writes in Hw. lia.
Qed.
Section Shifted.
  Variables (i : arm_in) (addr : Z) (v : imm_value) (z : Z).
  Hypothesis Hz : imm_word v = Some z.
  Hypothesis Hbl : i_bitlen i = 32.
  Lemma check_shifted : has (i_op i) ARM_SHIFT = true ->
    validate_imm i addr v = validate_shifted (i_op i) addr (s32 z).
  Proof.
    intros Hs. destruct (imm_word_s32 v z Hz) as (_ & [(x & -> & Ex)|(x & -> & Ex)]); unfold validate_imm;
      rewrite Hs, Hbl; cbn [negb andb rbind Z.eqb Pos.eqb]; rewrite Ex; destruct (validate_shifted _ _ _); reflexivity.
  Qed.
  Lemma check_literal : has (i_op i) ARM_SHIFT = false -> has (i_op i) ARM_POOL = true ->
    validate_imm i addr v =
    match getShiftedImmediate (s32 z) with
    | Some (t, s) => ROk (mkImmOut t s false (Some 0x03A00000) (Some ARM_TYPE5) None)
    | None =>
      match getShiftedImmediate (Z.lnot (s32 z)) with
      | Some (t, s) => ROk (mkImmOut t s false (Some 0x03E00000) (Some ARM_TYPE5) None)
      | None => ROk (mkImmOut (s32 z) 0 false None None (Some (s32 z)))
      end
    end.
  Proof.
    intros Hs Hp. destruct (imm_word_s32 v z Hz) as (_ & [(x & -> & Ex)|(x & -> & Ex)]); unfold validate_imm;
      rewrite Hs, Hp, Hbl; cbn [negb andb rbind Z.eqb Pos.eqb]; rewrite Ex; reflexivity.
  Qed.
End Shifted.

Lemma pool_mask addr : addr mod 4 = 0 -> Z.land (addr + 8) 0xFFFFFFFD = u32 (addr + 8).
Proof.
  intros H. unfold u32. change 4294967296 with (2 ^ 32). rewrite <- Z.land_ones by lia.
  apply Z.bits_inj'. intros j Hj. rewrite !Z.land_spec.
  destruct (Z.eqb_spec j 1) as [->|N].
  - assert (E : Z.testbit (addr + 8) 1 = false); [|rewrite E; reflexivity].
    assert (E : (addr + 8) mod 4 = 0) by lia. rewrite <- (Z.mod_pow2_bits_low (addr + 8) 2 1) by lia.
    change (2 ^ 2) with 4. rewrite E. apply Z.testbit_0_l.
  - f_equal. change 4294967293 with (Z.lxor (Z.ones 32) (2 ^ 1)). rewrite Z.lxor_spec, Z.pow2_bits_false by lia.
    apply xorb_false_r.
Qed.
Lemma pool_distance addr pool : addr mod 4 = 0 ->
  match arm_pool_offset addr pool with
  | ROk d => d = pc_distance addr pool /\ Z.abs d < 4096
  | RErr => ~ Z.abs (pc_distance addr pool) < 4096
  | RUb => u32 (pool - addr - 8) = 2147483648
  end.
Proof.
  intros H. unfold arm_pool_offset. rewrite pool_mask by exact H.
  assert (E : s32 (pool - u32 (addr + 8)) = pc_distance addr pool).
  { unfold pc_distance. apply s32_same. unfold u32. lia. }
  rewrite E. pose proof (s32_range (pool - addr - 8)) as R. fold (pc_distance addr pool) in R.
  pose proof (s32_mod (pool - addr - 8)) as M. fold (pc_distance addr pool) in M.
  pose proof (abs_int_cases _ R) as A. destruct (abs_int (pc_distance addr pool)) as [a| |]; cbn [rbind]; [|destruct A|].
  - destruct A as (-> & A). destruct (Z.gtb_spec (Z.abs (pc_distance addr pool)) 4095); lia.
  - unfold u32. rewrite <- M, A. reflexivity.
Qed.
Lemma encodable_not0 z : ~ arm_encodable z -> z <> 0 /\ z <> 2147483648.
Proof. intros H. split; intros ->; apply H; [apply encodable_0|apply encodable_31]. Qed.
Lemma word_literal i e addr pool q : word_hyps i e addr FLiteral q -> word_claim i e addr pool FLiteral q.
Proof.
  intros H. open_hyps H. settled. row0.
  destruct (imm_word_s32 _ _ Qimm) as (RQ & _).
  unfold word_claim, arm_emit, arm_validate. use_has HF. rewrite Hus. types.
  rewrite (check_literal i addr (e_imm e) (q_imm q) Qimm Hbl ltac:(has_by HF ARM_SHIFT) ltac:(has_by HF ARM_POOL)).
  pose proof (shifted_immediate_spec (s32 (q_imm q))) as S1. rewrite u32_s32, (u32_small (q_imm q)) in S1 by exact RQ.
  destruct (getShiftedImmediate (s32 (q_imm q))) as [[t s]|].
  - destruct S1 as (r & -> & Hr & Hb & Ev & _). cbn [rbind im_shift im_imm im_neg im_enc im_type im_pool].
    unfold arm_encode. cbn [o_pool o_newenc o_newtype o_final o_rn o_rm o_shift_amount o_imm o_negative rbind].
    use_has HF. rewrite Hs. types.
    split; [left; exists t, r; auto|]. eexists. split.
    + eapply (dpi_fields 13 (i_c i) 0 (i_rd i) false r t); try lia; [reflexivity|].
      unfold dpi_word. rewrite !Z.shiftl_0_l, !Z.lor_0_r. reflexivity.
    + left. split; [reflexivity|]. exists 13, (q_imm q). rewrite <- Ev, Qc, Qrd. split; [reflexivity|].
      apply dp_same_refl. lia.
  - pose proof (shifted_immediate_spec (Z.lnot (s32 (q_imm q)))) as S2.
    rewrite not32_lnot, (u32_small (q_imm q)) in S2 by exact RQ.
    destruct (getShiftedImmediate (Z.lnot (s32 (q_imm q)))) as [[t s]|].
    + destruct S2 as (r & -> & Hr & Hb & Ev & _). cbn [rbind im_shift im_imm im_neg im_enc im_type im_pool].
      unfold arm_encode. cbn [o_pool o_newenc o_newtype o_final o_rn o_rm o_shift_amount o_imm o_negative rbind].
      use_has HF. rewrite Hs. types.
      split; [right; left; exists t, r; auto|]. eexists. split.
      * eapply (dpi_fields 15 (i_c i) 0 (i_rd i) false r t); try lia; [reflexivity|].
        unfold dpi_word. rewrite !Z.shiftl_0_l, !Z.lor_0_r. reflexivity.
      * left. split; [reflexivity|]. exists 15, (not32 (q_imm q)). rewrite <- Ev, Qc, Qrd. split; [reflexivity|].
        destruct (encodable_not0 _ S1). apply dp_complement_same; auto.
    + cbn [rbind im_shift im_imm im_neg im_enc im_type im_pool].
      cbn [o_pool o_newenc o_newtype o_final o_rn o_rm o_shift_amount o_imm o_negative rbind].
      pose proof (pool_distance addr pool Hal) as P.
      destruct (arm_pool_offset addr pool) as [d| |]; cbn [rbind].
      * destruct P as (-> & P). unfold with_imm, arm_encode.
        cbn [o_pool o_newenc o_newtype o_final o_rn o_rm o_shift_amount o_imm o_negative o_cpop o_cpinf rbind].
        use_has HF. rewrite Hty, Henc, Hs, Hwb. types.
        destruct (pc_encode true (i_c i) (i_rd i) (pc_distance addr pool) addr _ Wc Wrd P eq_refl) as (w & Ew & D).
        unfold pc_word in Ew. change (Z.lor 0x058f0000 (Z.shiftl (b2z true) 20)) with 0x059f0000 in Ew.
        rewrite Ew. cbn [rbind].
        split; [right; right; exact P|]. eexists. split; [exact D|]. right.
        exists (s32 (q_imm q)), (pc_distance addr pool). rewrite Qc, Qrd.
        split; [reflexivity|]. split; [rewrite u32_s32; apply u32_small; exact RQ|]. split; [reflexivity|].
        apply pc_reaches.
      * intros [F|[F|F]]; auto.
      * exact P.
Qed.
