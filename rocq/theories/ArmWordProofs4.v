(** ARM words decode to the instructions that the source lines ask for: immediate operands. *)

Require Import ZArith Lia Bool List String Ascii.
Require Import ZifyBool Btauto.
Require Import Verif.Ints Verif.IntsLemmas Verif.BitFields Verif.Res Verif.ArmModel Verif.ArmLineModel Verif.ArmSpec
  Verif.ArmIface Verif.ArmProofs Verif.ArmImmProofs Verif.ArmShiftProofs Verif.ArmWordSpec Verif.ArmRowProofs Verif.ArmWordIface
  Verif.ArmWordProofs Verif.ArmWordProofs2 Verif.ArmWordProofs3.
Import ListNotations.
Local Open Scope Z_scope.
Ltac Zify.zify_post_hook ::= Z.div_mod_to_equations.

(** * Checking the immediate *)

Lemma s32_same a b : a mod 4294967296 = b mod 4294967296 -> s32 a = s32 b.
Proof. intros H. unfold s32. rewrite H. reflexivity. Qed.
Lemma s32_u32 x : s32 (u32 x) = s32 x.
Proof. apply s32_same. unfold u32. lia. Qed.
Lemma imm_word_s32 v z : imm_word v = Some z -> 0 <= z < 4294967296 /\
  ((exists x, v = IInt x /\ s32 x = s32 z) \/ (exists x, v = IFloat x /\ s32 x = s32 z)).
Proof.
  destruct v as [x|x|]; intros E; try discriminate; cbn in E; injection E as <-;
    (split; [apply u32_range|]); [left|right]; exists x; (split; [reflexivity|symmetry; apply s32_u32]).
Qed.
Lemma pc_distance_s32 addr z : s32 (s32 z - addr - 8) = pc_distance addr z.
Proof.
  unfold pc_distance. apply s32_same. pose proof (s32_mod z). lia.
Qed.
Lemma abs_int_cases x : -2147483648 <= x < 2147483648 ->
  match abs_int x with ROk a => a = Z.abs x /\ a < 2147483648 | RErr => False | RUb => x = -2147483648 end.
Proof. intros H. unfold abs_int. destruct (Z.eqb_spec x (-2147483648)); [assumption|lia]. Qed.

Section Check.
  Variables (i : arm_in) (addr : Z) (v : imm_value) (z len : Z).
  Hypothesis Hz : imm_word v = Some z.
  Hypothesis Hbl : i_bitlen i = len.
  Hypothesis Hlen : 0 < len < 32.
  Hypothesis Hsh : has (i_op i) ARM_SHIFT = false.
  Hypothesis Hpool : has (i_op i) ARM_POOL = false.
  Hypothesis Hbr : has (i_op i) ARM_BRANCH = false.

  Lemma check_open : validate_imm i addr v =
    (do imm <- (if int_imm v then ROk (s32 z) else RErr);
     let range (r : arm_imm_out) : res arm_imm_out :=
       if negb (has (i_op i) ARM_ABSIMM) then
         do check <- (if has (i_op i) ARM_ABS then abs_int (im_imm r) else ROk (im_imm r));
         if u32 check >=? 2 ^ len then RErr else ROk r
       else ROk r in
     if has (i_op i) ARM_ABSIMM then
       do a <- abs_int (pc_distance addr z);
       if a >=? 2 ^ len then RErr else range (mkImmOut (pc_distance addr z) 0 false None None None)
     else if has (i_op i) ARM_SWI then
       if match i_arch i with AARCH_GBA | AARCH_NDS => true | _ => false end && (imm <? 0xFF) then
         if imm <? 0 then RUb else range (mkImmOut (s32 (Z.shiftl imm 16)) 0 false None None None)
       else range (mkImmOut imm 0 false None None None)
     else if has (i_op i) ARM_ABS && (imm <? 0) then
       do a <- abs_int imm; range (mkImmOut a 0 true None None None)
     else range (mkImmOut imm 0 false None None None)).
  Proof.
    destruct (imm_word_s32 v z Hz) as (_ & [(x & -> & Ex)|(x & -> & Ex)]); unfold validate_imm;
      rewrite Hsh, Hpool, Hbr, Hbl; cbn [negb andb rbind int_imm]; [|reflexivity].
    replace (negb (len =? 32)) with true by lia. cbn [andb].
    assert (E2 : u32 (2 ^ len) = 2 ^ len).
    { apply u32_small. split; [lia|]. change 4294967296 with (2 ^ 32). apply Z.pow_lt_mono_r; lia. }
    rewrite E2, Ex, pc_distance_s32. reflexivity.
  Qed.
  Lemma len_pow : 2 <= 2 ^ len <= 2147483648.
  Proof.
    split.
    - change 2 with (2 ^ 1) at 1. apply Z.pow_le_mono_r; lia.
    - change 2147483648 with (2 ^ 31). apply Z.pow_le_mono_r; lia.
  Qed.

  Lemma check_abs : has (i_op i) ARM_ABSIMM = false -> has (i_op i) ARM_SWI = false -> has (i_op i) ARM_ABS = true ->
    match validate_imm i addr v with
    | ROk r => int_imm v = true /\ Z.abs (s32 z) < 2 ^ len /\
               r = mkImmOut (Z.abs (s32 z)) 0 (s32 z <? 0) None None None
    | RErr => ~ (int_imm v = true /\ Z.abs (s32 z) < 2 ^ len)
    | RUb => z = 2147483648
    end.
  Proof.
    intros Ha Hs Hb. rewrite check_open, Ha, Hs, Hb. cbn [negb andb]. pose proof len_pow as P.
    destruct (imm_word_s32 v z Hz) as (Rz & _). pose proof (s32_range z) as R. pose proof (s32_mod z) as M.
    destruct (int_imm v); cbn [rbind]; [|intros (? & _); discriminate].
    destruct (Z.ltb_spec (s32 z) 0).
    - pose proof (abs_int_cases _ R) as A. destruct (abs_int (s32 z)) as [a| |]; cbn [rbind]; [|destruct A|lia].
      destruct A as (-> & A). cbn [im_imm]. pose proof (abs_int_cases (Z.abs (s32 z)) ltac:(lia)) as A2.
      destruct (abs_int (Z.abs (s32 z))) as [a| |]; cbn [rbind]; [|destruct A2|lia].
      destruct A2 as (-> & A2). rewrite Z.abs_involutive, u32_small by lia.
      destruct (Z.geb_spec (Z.abs (s32 z)) (2 ^ len)); [lia|]. auto.
    - cbn [im_imm]. pose proof (abs_int_cases _ R) as A. destruct (abs_int (s32 z)) as [a| |]; cbn [rbind]; [|destruct A|lia].
      destruct A as (-> & A). rewrite u32_small by lia.
      destruct (Z.geb_spec (Z.abs (s32 z)) (2 ^ len)); [lia|]. split; [reflexivity|split; [lia|]]. f_equal. lia.
  Qed.

  Lemma check_plain : has (i_op i) ARM_ABSIMM = false -> has (i_op i) ARM_SWI = false -> has (i_op i) ARM_ABS = false ->
    match validate_imm i addr v with
    | ROk r => int_imm v = true /\ z < 2 ^ len /\ r = mkImmOut z 0 false None None None
    | RErr => ~ (int_imm v = true /\ z < 2 ^ len)
    | RUb => False
    end.
  Proof.
    intros Ha Hs Hb. rewrite check_open, Ha, Hs, Hb. cbn [negb andb]. pose proof len_pow as P.
    destruct (imm_word_s32 v z Hz) as (Rz & _). pose proof (s32_range z) as R. pose proof (s32_mod z) as M.
    destruct (int_imm v); cbn [rbind]; [|intros (? & _); discriminate].
    cbn [im_imm]. rewrite u32_s32, u32_small by lia.
    destruct (Z.geb_spec z (2 ^ len)); [lia|]. rewrite s32_small by lia. auto.
  Qed.

  Lemma check_pc : has (i_op i) ARM_ABSIMM = true ->
    match validate_imm i addr v with
    | ROk r => int_imm v = true /\ Z.abs (pc_distance addr z) < 2 ^ len /\
               r = mkImmOut (pc_distance addr z) 0 false None None None
    | RErr => ~ (int_imm v = true /\ Z.abs (pc_distance addr z) < 2 ^ len)
    | RUb => u32 (z - addr - 8) = 2147483648
    end.
  Proof.
    intros Ha. rewrite check_open, Ha. cbn [negb andb].
    destruct (int_imm v); cbn [rbind]; [|intros (? & _); discriminate].
    pose proof (s32_range (z - addr - 8)) as R. fold (pc_distance addr z) in R.
    pose proof (s32_mod (z - addr - 8)) as M. fold (pc_distance addr z) in M.
    pose proof (abs_int_cases _ R) as A. destruct (abs_int (pc_distance addr z)) as [a| |]; cbn [rbind]; [|destruct A|].
    - destruct A as (-> & A). destruct (Z.geb_spec (Z.abs (pc_distance addr z)) (2 ^ len)); [lia|]. auto.
    - unfold u32. rewrite <- M, A. reflexivity.
  Qed.

  Lemma check_swi : has (i_op i) ARM_ABSIMM = false -> has (i_op i) ARM_SWI = true -> has (i_op i) ARM_ABS = false ->
    2 ^ 24 <= 2 ^ len ->
    let short := match i_arch i with AARCH_GBA | AARCH_NDS => true | _ => false end in
    let n := if short && (z <? 255) then z * 65536 else z in
    match validate_imm i addr v with
    | ROk r => int_imm v = true /\ n < 2 ^ len /\ r = mkImmOut n 0 false None None None
    | RErr => ~ (int_imm v = true /\ n < 2 ^ len)
    | RUb => short = true /\ 2147483648 <= z
    end.
  Proof.
    intros Ha Hs Hb Hl short n. rewrite check_open, Ha, Hs, Hb. cbn [negb andb]. pose proof len_pow as P.
    destruct (imm_word_s32 v z Hz) as (Rz & _). pose proof (s32_range z) as R. pose proof (s32_mod z) as M.
    destruct (int_imm v); cbn [rbind]; [|intros (? & _); discriminate]. fold short.
    assert (Hpl : forall m, 0 <= m < 4294967296 -> n = m ->
      match (if u32 (im_imm (mkImmOut (s32 m) 0 false None None None)) >=? 2 ^ len then RErr
             else ROk (mkImmOut (s32 m) 0 false None None None)) with
      | ROk r => true = true /\ n < 2 ^ len /\ r = mkImmOut n 0 false None None None
      | RErr => ~ (true = true /\ n < 2 ^ len)
      | RUb => short = true /\ 2147483648 <= z
      end).
    { intros m Hm Em. rewrite Em. clear Em n. cbn [im_imm]. rewrite u32_s32, u32_small by lia.
      destruct (Z.geb_spec m (2 ^ len)); [lia|]. rewrite s32_small by lia. auto. }
    destruct short eqn:Esh; cbn [andb] in *.
    - destruct (Z.ltb_spec (s32 z) 255).
      + destruct (Z.ltb_spec (s32 z) 0).
        * split; [reflexivity|]. lia.
        * assert (Ez : s32 z = z) by lia. rewrite Ez. rewrite Z.shiftl_mul_pow2 by lia. change (2 ^ 16) with 65536.
          apply Hpl; [lia|]. unfold n. replace (z <? 255) with true by lia. reflexivity.
      + apply Hpl; [lia|]. unfold n. replace (z <? 255) with false by lia. reflexivity.
    - apply Hpl; [lia|]. reflexivity.
  Qed.
End Check.

(** * Loads and stores with a number *)

Definition mem_word (l b t pre : bool) (c vn vd : Z) (wb up : bool) : Z :=
  let x := Z.lor (Z.lor (Z.lor (Z.lor (Z.lor (Z.lor (Z.lor (Z.lor (Z.lor 0x04800000 (Z.shiftl (b2z false) 25)) (Z.shiftl (b2z pre) 24))
          (Z.shiftl (b2z b) 22)) (Z.shiftl (b2z t) 21)) (Z.shiftl (b2z l) 20)) (Z.shiftl c 28))
          (Z.shiftl (b2z wb) 21)) (Z.shiftl vn 16)) (Z.shiftl vd 12) in
  if up then x else clear_bit x 23.
Lemma mem_imm_fields l b t pre c vn vd wb up n addr :
  0 <= c < 15 -> 0 <= vn < 16 -> 0 <= vd < 16 -> 0 <= n < 4096 ->
  arm_decode addr (u32 (Z.lor (mem_word l b t pre c vn vd wb up) n))
  = Some (AMem c l b (index_of pre (t || wb)) vn vd (OffImm (signed_off up n))).
Proof.
  intros Hc Hvn Hvd Hn. set (W := u32 _).
  assert (F : bits W 28 4 = c /\ bits W 25 3 = 2 /\ bits W 24 1 = b2z pre /\ bits W 23 1 = b2z up /\ bits W 22 1 = b2z b /\
    bits W 21 1 = Z.lor (b2z t) (b2z wb) /\ bits W 20 1 = b2z l /\ bits W 16 4 = vn /\ bits W 12 4 = vd /\ bits W 0 12 = n).
  { unfold W, mem_word. bool_ranges. destruct up; fields; auto 20. }
  decompose [and] F. clear F. clearbody W.
  unfold arm_decode, flag. repeat match goal with H : bits W _ _ = _ |- _ => rewrite H end.
  rewrite !b2z_eqb, b2z_lor_eqb, (proj2 (Z.eqb_neq c 15)) by lia. reflexivity.
Qed.
Lemma signed_abs z : signed_off (negb (z <? 0)) (Z.abs z) = z.
Proof. unfold signed_off. destruct (Z.ltb_spec z 0); cbn [negb]; lia. Qed.
Lemma q_imm_range i e f q : agrees i e f q -> takes_imm f = true -> imm_word (e_imm e) = Some (q_imm q) /\ 0 <= q_imm q < 4294967296.
Proof.
  intros (_ & _ & _ & _ & _ & H & _) T. specialize (H T). split; [exact H|]. destruct (imm_word_s32 _ _ H) as (R & _). exact R.
Qed.
Ltac has_by HF F := rewrite (HF F eq_refl); reflexivity.
Lemma word_mem_imm i e addr pool q l b u post : word_hyps i e addr (FMem l b u (PlImm post)) q ->
  word_claim i e addr pool (FMem l b u (PlImm post)) q.
Proof.
  intros H. open_hyps H. settled. row0.
  assert (Hu : u = true -> post = true).
  { intros ->. destruct (row_user _ _ _ _ Hin Hform) as [E|[E|E]]; congruence. }
  assert (Hw : post = true -> i_writeback i = false) by (intros ->; apply Hwb; reflexivity).
  assert (Hix : index_of (pl_pre (PlImm post)) ((u || pl_wb (PlImm post)) || i_writeback i)
                = place_index (PlImm post) u q).
  { cbn [place_index pl_pre pl_wb]. rewrite Qwb. destruct post; [rewrite (Hw eq_refl)|]; destruct u; try reflexivity.
    specialize (Hu eq_refl). discriminate. }
  unfold word_claim, arm_emit, arm_validate. use_has HF. rewrite Hus. types.
  pose proof (check_abs i addr (e_imm e) (q_imm q) 12 Qimm Hbl ltac:(lia)
    ltac:(has_by HF ARM_SHIFT) ltac:(has_by HF ARM_POOL) ltac:(has_by HF ARM_BRANCH)
    ltac:(has_by HF ARM_ABSIMM) ltac:(has_by HF ARM_SWI) ltac:(has_by HF ARM_ABS)) as V.
  change (2 ^ 12) with 4096 in V.
  destruct (validate_imm i addr (e_imm e)) as [r| |]; cbn [rbind].
  - destruct V as (Vi & Va & ->). cbn [im_shift im_imm im_neg im_enc im_type im_pool].
    unfold arm_encode. cbn [o_pool o_newenc o_newtype o_final o_rn o_rm o_shift_amount o_imm o_negative rbind].
    use_has HF. rewrite Hty, Henc, Hs. types. rewrite orif_field. unfold bitf. cbn [pl_reg].
    replace (Z.abs (s32 (q_imm q)) <? 0) with false by lia. cbn [rbind].
    split; [rewrite Vi; cbn; split; [reflexivity|lia]|].
    pose proof (mem_imm_fields l b (u || pl_wb (PlImm post)) (pl_pre (PlImm post)) (i_c i) (i_rn i) (i_rd i) (i_writeback i)
      (negb (s32 (q_imm q) <? 0)) (Z.abs (s32 (q_imm q))) addr ltac:(lia) ltac:(lia) ltac:(lia) ltac:(lia)) as D.
    match type of D with context [arm_decode addr ?V] =>
      match goal with |- context [arm_decode addr ?W] =>
        replace W with V by (unfold mem_word; destruct (s32 (q_imm q) <? 0); reflexivity) end end.
    rewrite D, Hix, signed_abs. eexists. split; [reflexivity|]. half_finish.
    eexists. split; [reflexivity|]. rewrite u32_s32. apply u32_small. eapply imm_word_s32. exact Qimm.
  - intros (Vi & Va). apply V. split; [exact Vi|lia].
  - exact V.
Qed.
Lemma word_pld_imm i e addr pool q post : word_hyps i e addr (FPld (PlImm post)) q ->
  word_claim i e addr pool (FPld (PlImm post)) q.
Proof.
  intros H. open_hyps H. settled. row0.
  unfold word_claim, arm_emit, arm_validate. use_has HF. rewrite Hus. types.
  pose proof (check_abs i addr (e_imm e) (q_imm q) 12 Qimm Hbl ltac:(lia)
    ltac:(has_by HF ARM_SHIFT) ltac:(has_by HF ARM_POOL) ltac:(has_by HF ARM_BRANCH)
    ltac:(has_by HF ARM_ABSIMM) ltac:(has_by HF ARM_SWI) ltac:(has_by HF ARM_ABS)) as V.
  change (2 ^ 12) with 4096 in V.
  destruct (validate_imm i addr (e_imm e)) as [r| |]; cbn [rbind].
  - destruct V as (Vi & Va & ->). cbn [im_shift im_imm im_neg im_enc im_type im_pool].
    unfold arm_encode. cbn [o_pool o_newenc o_newtype o_final o_rn o_rm o_shift_amount o_imm o_negative rbind].
    use_has HF. rewrite Hty, Henc, Hs, Hwb. types. unfold bitf. cbn [pl_reg].
    replace (Z.abs (s32 (q_imm q)) <? 0) with false by lia. cbn [rbind].
    split; [rewrite Vi; cbn; split; [reflexivity|lia]|].
    exists (APld (q_rn q) (OffImm (signed_off (negb (s32 (q_imm q) <? 0)) (Z.abs (s32 (q_imm q)))))).
    split; [|split; [reflexivity|]].
    2:{ eexists. split; [reflexivity|]. rewrite signed_abs. eexists. split; [reflexivity|].
        rewrite u32_s32. apply u32_small. eapply imm_word_s32. exact Qimm. }
    rewrite Qrn.
    assert (0 <= Z.abs (s32 (q_imm q)) < 4096) by lia. set (n := Z.abs (s32 (q_imm q))) in *. clearbody n.
    unfold arm_decode, decode_uncond, flag.
    destruct (s32 (q_imm q) <? 0); cbn [negb]; fields; reflexivity.
  - intros (Vi & Va). apply V. split; [exact Vi|lia].
  - exact V.
Qed.
Lemma split_byte n : 0 <= n < 256 ->
  exists hi lo, 0 <= hi < 16 /\ 0 <= lo < 16 /\ n = 16 * hi + lo /\ Z.land n 0xF = lo /\
    Z.shiftl (Z.land n 0xF0) 4 = Z.shiftl hi 8.
Proof.
  intros H. exists (n / 16), (n mod 16). split; [lia|split; [lia|split; [lia|split]]].
  - change 15 with (Z.ones 4). rewrite Z.land_ones by lia. reflexivity.
  - assert (E : Z.land n 240 = Z.shiftl (n / 16) 4).
    { apply Z.bits_inj'. intros j Hj. rewrite Z.land_spec, Z.shiftl_spec by lia.
      change (n / 16) with (n / 2 ^ 4). rewrite <- Z.shiftr_div_pow2 by lia.
      change 240 with (Z.shiftl (Z.ones 4) 4). rewrite Z.shiftl_spec by lia.
      destruct (Z.ltb_spec j 4).
      - rewrite !(Z.testbit_neg_r _ (j - 4)) by lia. apply andb_false_r.
      - rewrite Z.shiftr_spec by lia. replace (j - 4 + 4) with j by lia.
        destruct (Z.ltb_spec j 8).
        + rewrite Z.ones_spec_low by lia. apply andb_true_r.
        + rewrite Z.ones_spec_high by lia. rewrite andb_false_r. symmetry.
          destruct (Z.eqb_spec n 0) as [->|]; [apply Z.testbit_0_l|].
          apply Z.bits_above_log2; [lia|]. assert (Z.log2 n < 8); [|lia]. apply Z.log2_lt_pow2; [lia|].
          change (2 ^ 8) with 256. lia. }
    rewrite E, Z.shiftl_shiftl by lia. reflexivity.
Qed.
Lemma word_half_imm i e addr pool q k post : word_hyps i e addr (FHalf k (PlImm post)) q ->
  word_claim i e addr pool (FHalf k (PlImm post)) q.
Proof.
  intros H.
  assert (Hd : half_defined k (i_rd i) = true).
  { destruct H as (_ & _ & _ & (_ & (Qrd & _) & _) & (_ & Hs) & _). rewrite <- Qrd. destruct k; try reflexivity; exact Hs. }
  open_hyps H. settled.
  assert (Hw : pl_pre (PlImm post) = false -> i_writeback i = false).
  { intros E. apply Hwb. destruct post; [destruct k; reflexivity|discriminate]. }
  assert (HU : i_use_shift i = false) by (apply Hus; destruct k; reflexivity).
  assert (HS : i_s i = false) by (apply Hs; destruct k; reflexivity).
  assert (HB : i_bitlen i = 8) by (apply Hbl; destruct k; reflexivity).
  assert (HQ : imm_word (e_imm e) = Some (q_imm q)) by (apply Qimm; destruct k; reflexivity).
  destruct (imm_word_s32 _ _ HQ) as (RQ & _).
  assert (Hix : index_of (pl_pre (PlImm post)) (i_writeback i) = place_index (PlImm post) false q).
  { cbn [place_index pl_pre]. rewrite Qwb. destruct post; [rewrite (Hw eq_refl)|]; reflexivity. }
  row0.
  assert (HA : has (i_op i) ARM_ABS = half_abs k) by (rewrite (HF ARM_ABS eq_refl); destruct k; reflexivity).
  assert (HP : forall F, existsb (Z.eqb F) [ARM_SHIFT; ARM_POOL; ARM_BRANCH; ARM_ABSIMM; ARM_SWI; ARM_COPOP; ARM_COPINF;
      ARM_DN; ARM_DM; ARM_RDEVEN; ARM_UNCOND; ARM_SIGN; ARM_REGISTER] = true -> has (i_op i) F = false).
  { intros F HF'. rewrite existsb_exists in HF'. destruct HF' as (G & HG & E). apply Z.eqb_eq in E. subst G.
    repeat (destruct HG as [<-|HG]); try (rewrite HF by reflexivity; destruct k; reflexivity). destruct HG. }
  assert (HI : has (i_op i) ARM_IMMEDIATE = true) by (rewrite (HF ARM_IMMEDIATE eq_refl); destruct k; reflexivity).
  assert (V : match validate_imm i addr (e_imm e) with
    | ROk r => int_imm (e_imm e) = true /\ (if half_abs k then Z.abs (s32 (q_imm q)) < 256 else 0 <= s32 (q_imm q) < 256) /\
         r = mkImmOut (Z.abs (s32 (q_imm q))) 0 (s32 (q_imm q) <? 0) None None None
    | RErr => ~ (int_imm (e_imm e) = true /\ (if half_abs k then Z.abs (s32 (q_imm q)) < 256 else 0 <= s32 (q_imm q) < 256))
    | RUb => q_imm q = 2147483648
    end).
  { destruct (half_abs k).
    - apply (check_abs i addr (e_imm e) (q_imm q) 8); try assumption; try lia; apply HP; reflexivity.
    - pose proof (check_plain i addr (e_imm e) (q_imm q) 8 HQ HB ltac:(lia)
        (HP ARM_SHIFT eq_refl) (HP ARM_POOL eq_refl) (HP ARM_BRANCH eq_refl) (HP ARM_ABSIMM eq_refl) (HP ARM_SWI eq_refl) HA) as V.
      change (2 ^ 8) with 256 in V. pose proof (s32_mod (q_imm q)). pose proof (s32_range (q_imm q)).
      destruct (validate_imm i addr (e_imm e)) as [r| |]; [|intros (A & B); apply V; split; [exact A|lia]|destruct V].
      destruct V as (A & B & ->). split; [exact A|split; [lia|]]. f_equal; lia. }
  assert (Hfit : arm_fits (FHalf k (PlImm post)) q addr pool (int_imm (e_imm e)) <->
    int_imm (e_imm e) = true /\ (if half_abs k then Z.abs (s32 (q_imm q)) < 256 else 0 <= s32 (q_imm q) < 256)).
  { destruct k; cbn [arm_fits place_fits half_abs]; (split; intros (A & B); split; [exact A|lia|exact A|lia]). }
  unfold word_claim, arm_emit, arm_validate.
  rewrite (HP ARM_COPOP), (HP ARM_COPINF), (HP ARM_DN), (HP ARM_DM), (HP ARM_RDEVEN), HI by reflexivity. rewrite HU. types.
  destruct (validate_imm i addr (e_imm e)) as [r| |]; cbn [rbind].
  - destruct V as (Vi & Va & ->). cbn [im_shift im_imm im_neg im_enc im_type im_pool].
    unfold arm_encode. cbn [o_pool o_newenc o_newtype o_final o_rn o_rm o_shift_amount o_imm o_negative rbind].
    rewrite Hty, Henc, HS, HI, (HP ARM_SIGN), (HP ARM_UNCOND), HA by reflexivity. types. rewrite orif_field. unfold bitf.
    replace (Z.abs (s32 (q_imm q)) <? 0) with false by lia. cbn [rbind].
    split; [apply Hfit; auto|].
    assert (Hn : 0 <= Z.abs (s32 (q_imm q)) < 256) by (destruct (half_abs k); lia).
    destruct (split_byte _ Hn) as (hi & lo & Hhi & Hlo & En & El & Eh). rewrite El, Eh.
    pose proof (half_fields k (PlImm post) (i_c i) (i_rn i) (i_rd i) (i_writeback i)
      (negb (s32 (q_imm q) <? 0)) lo hi addr Wc Wrn Wrd Hlo Hhi Hw Hd ltac:(discriminate)) as D.
    match type of D with context [arm_decode addr ?V] =>
      match goal with |- context [arm_decode addr ?W] =>
        replace W with V; [|unfold half_word, half_base; destruct (Z.ltb_spec (s32 (q_imm q)) 0); destruct (half_abs k); try lia; reflexivity] end end.
    rewrite D, Hix. cbn [pl_reg]. rewrite <- En, signed_abs. eexists. split; [reflexivity|]. half_finish.
    eexists. split; [reflexivity|]. rewrite u32_s32. apply u32_small. exact RQ.
  - rewrite Hfit. exact V.
  - destruct k; exact V.
Qed.
