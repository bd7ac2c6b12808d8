(** ARM words decode to the instructions that the source lines ask for: loads and stores. *)

Require Import ZArith Lia Bool List String Ascii.
Require Import ZifyBool Btauto.
Require Import Verif.Ints Verif.IntsLemmas Verif.BitFields Verif.Res Verif.ArmModel Verif.ArmLineModel Verif.ArmSpec
  Verif.ArmIface Verif.ArmProofs Verif.ArmShiftProofs Verif.ArmWordSpec Verif.ArmRowProofs Verif.ArmWordIface
  Verif.ArmWordProofs Verif.ArmWordProofs2.
Import ListNotations.
Local Open Scope Z_scope.
Ltac Zify.zify_post_hook ::= Z.div_mod_to_equations.

(** * Base register only *)

Lemma word_mem_base i e addr pool q l b u wb : word_hyps i e addr (FMem l b u (PlBase wb)) q ->
  word_claim i e addr pool (FMem l b u (PlBase wb)) q.
Proof.
  intros H. plain H. eexists. split; [|split; [reflexivity|]].
  2:{ eexists. split; [ops0; cbn [place_index]; reflexivity|reflexivity]. }
  cbn in Hsane. subst u. dec. destruct wb, b, l; reflexivity.
Qed.
Lemma word_pld_base i e addr pool q wb : word_hyps i e addr (FPld (PlBase wb)) q ->
  word_claim i e addr pool (FPld (PlBase wb)) q.
Proof.
  intros H. plain H. eexists. split; [|split; [reflexivity|]].
  2:{ eexists. split; [ops0; reflexivity|reflexivity]. }
  unfold arm_decode, decode_uncond, flag. dec. reflexivity.
Qed.

(** * Register offset *)

(** The part of the word that all register offsets share. *)
Lemma mem_reg_fields c p u b t l vn vd am ty vm wb cc x :
  0 <= c < 16 -> 0 <= vn < 16 -> 0 <= vd < 16 -> 0 <= am < 32 -> 0 <= ty < 4 -> 0 <= vm < 16 ->
  x = Z.lor (Z.lor (Z.lor (Z.lor (Z.lor (Z.lor (Z.lor (Z.lor (Z.lor 0x04800000 (Z.shiftl (b2z true) 25)) (Z.shiftl (b2z p) 24))
          (Z.shiftl (b2z b) 22)) (Z.shiftl (b2z t) 21)) (Z.shiftl (b2z l) 20)) (Z.shiftl c 28))
          (Z.shiftl (b2z wb) 21)) (Z.shiftl vn 16)) (Z.shiftl vd 12) ->
  cc = (if negb u then clear_bit x 23 else x) ->
  decode_mem_reg (u32 (Z.lor (Z.lor (Z.lor cc (Z.shiftl am 7)) (Z.shiftl ty 5)) vm))
    = Some (mkMemReg c p u b (t || wb) l vn vd (decode_imm_shift ty am) vm) /\
  decode_mem_reg (u32 (Z.lor cc vm)) = Some (mkMemReg c p u b (t || wb) l vn vd (ShLSL 0) vm).
Proof.
  intros. subst cc x. unfold decode_mem_reg. bool_ranges.
  destruct u; cbn [negb]; fields; rewrite ?b2z_eqb, ?b2z_lor_eqb; split; reflexivity.
Qed.


(** A register offset: without shift, or with a constant shift that was checked. *)
Inductive shift_case (i : arm_in) (e : arm_eval) (q : aops) : Prop :=
| SC_none : i_use_shift i = false -> q_shift q = WNone -> shift_case i e q
| SC_bad n : i_use_shift i = true -> i_shift_byreg i = false -> e_shift e = Some n ->
    validate_shift (i_shift_type i) (s32 n) = RErr -> ~ shift_fits (q_shift q) -> shift_case i e q
| SC_ok n t a : i_use_shift i = true -> i_shift_byreg i = false -> e_shift e = Some n ->
    validate_shift (i_shift_type i) (s32 n) = ROk (t, a) -> 0 <= t < 4 -> 0 <= a < 32 ->
    shift_fits (q_shift q) -> shift_means (q_shift q) (decode_imm_shift t a) -> shift_case i e q.
Lemma shift_cases i e q : 0 <= i_shift_type i <= 4 -> (i_use_shift i = true -> i_shift_byreg i = false) ->
  shift_of i e (q_shift q) -> shift_sane (q_shift q) -> shift_case i e q.
Proof.
  intros Hty Hby Hof Hsane. unfold shift_of in Hof. destruct (i_use_shift i) eqn:Hus.
  - rewrite (Hby eq_refl) in Hof. destruct Hof as (n & He & Eq). rewrite Eq in Hsane. destruct Hsane as (Hn & H32).
    pose proof (validate_shift_fields (i_shift_type i) n Hty H32) as V.
    pose proof (f_equal (validate_shift (i_shift_type i)) (s32_small n Hn)) as E32.
    destruct (validate_shift (i_shift_type i) n) as [[t a]| |] eqn:E.
    + destruct V as (Ht & Ha & w & Hw & Hs). eapply SC_ok; eauto; rewrite Eq; cbn; eauto.
    + eapply SC_bad; eauto. rewrite Eq. cbn. rewrite V. intros (sh & K). discriminate.
    + destruct V.
  - apply SC_none; assumption.
Qed.
Lemma word_mem_reg i e addr pool q l b u post : word_hyps i e addr (FMem l b u (PlReg post)) q ->
  word_claim i e addr pool (FMem l b u (PlReg post)) q.
Proof.
  intros H. open_hyps H. settled. row0.
  assert (Hu : u = true -> post = true).
  { intros ->. destruct (row_user _ _ _ _ Hin Hform) as [E|[E|E]]; congruence. }
  assert (Hw : post = true -> i_writeback i = false) by (intros ->; apply Hwb; reflexivity).
  assert (Hix : index_of (pl_pre (PlReg post)) ((u || pl_wb (PlReg post)) || i_writeback i)
                = place_index (PlReg post) u q).
  { cbn [place_index pl_pre pl_wb]. rewrite Qwb. destruct post; [rewrite (Hw eq_refl)|]; destruct u; try reflexivity.
    specialize (Hu eq_refl). discriminate. }
  destruct (shift_cases i e q Hsty Hbyr Qsh Hss) as [U S|n U B E V NF|n t a U B E V Ht Ha F M].
  - emit0. cbn [pl_reg]. split; [cbn; rewrite S; exact Logic.I|].
    eexists. split.
    + apply decode_of_mem_reg.
      * eapply proj2. eapply mem_reg_fields with (am := 0) (ty := 0); [| | | | | |reflexivity|reflexivity]; lia.
      * cbn. lia.
    + split; [reflexivity|]. unfold of_mem_reg; cbn [mr_cond mr_l mr_b mr_p mr_w mr_rn mr_rd mr_u mr_rm mr_shift].
      eexists. rewrite Hix. ops0. cbn [takes_sign andb].
      split; [reflexivity|]. eexists. split; [ops0; reflexivity|]. rewrite S. reflexivity.
  - unfold word_claim, arm_emit, arm_validate. rewrite U, B, E, V. exact NF.
  - unfold word_claim, arm_emit, arm_validate. rewrite U, B, E, V. use_has HF. types.
    unfold arm_encode. cbn [o_pool o_newenc o_newtype o_final o_rn o_rm o_shift_amount o_imm o_negative].
    use_has HF. rewrite Hty, Henc, U, Hs. types. rewrite orif_field. unfold bitf. cbn [pl_reg].
    split; [exact F|]. eexists. split.
    + apply decode_of_mem_reg.
      * eapply proj1. eapply mem_reg_fields; [| | | | | |reflexivity|reflexivity]; lia.
      * cbn. lia.
    + split; [reflexivity|]. unfold of_mem_reg; cbn [mr_cond mr_l mr_b mr_p mr_w mr_rn mr_rd mr_u mr_rm mr_shift].
      eexists. rewrite Hix. ops0. cbn [takes_sign andb].
      split; [reflexivity|]. eexists. split; [ops0; reflexivity|]. exact M.
Qed.

Lemma pld_reg_fields u vn am ty vm cc :
  0 <= vn < 16 -> 0 <= am < 32 -> 0 <= ty < 4 -> 0 <= vm < 16 ->
  cc = (if negb u then clear_bit (Z.lor (Z.lor 0xf5d0f000 (Z.shiftl (b2z true) 25)) (Z.shiftl vn 16)) 23
        else Z.lor (Z.lor 0xf5d0f000 (Z.shiftl (b2z true) 25)) (Z.shiftl vn 16)) ->
  forall addr,
  arm_decode addr (u32 (Z.lor (Z.lor (Z.lor cc (Z.shiftl am 7)) (Z.shiftl ty 5)) vm))
    = Some (APld vn (OffReg (negb u) vm (decode_imm_shift ty am))) /\
  arm_decode addr (u32 (Z.lor cc vm)) = Some (APld vn (OffReg (negb u) vm (ShLSL 0))).
Proof.
  intros. subst cc. unfold arm_decode, decode_uncond, flag.
  split; destruct u; cbn [negb]; fields; cbn [Z.eqb Pos.eqb]; fields; reflexivity.
Qed.
Lemma word_pld_reg i e addr pool q post : word_hyps i e addr (FPld (PlReg post)) q ->
  word_claim i e addr pool (FPld (PlReg post)) q.
Proof.
  intros H. open_hyps H. settled. row0.
  destruct (shift_cases i e q Hsty Hbyr Qsh Hss) as [U S|n U B E V NF|n t a U B E V Ht Ha F M].
  - emit0. cbn [pl_reg]. split; [cbn; rewrite S; exact Logic.I|].
    eexists. split.
    + eapply proj2. eapply pld_reg_fields with (am := 0) (ty := 0); [| | | |reflexivity]; lia.
    + split; [reflexivity|]. 
      eexists. ops0. split; [reflexivity|]. eexists. split; [ops0; reflexivity|]. rewrite S. reflexivity.
  - unfold word_claim, arm_emit, arm_validate. rewrite U, B, E, V. exact NF.
  - unfold word_claim, arm_emit, arm_validate. rewrite U, B, E, V. use_has HF. types.
    unfold arm_encode. cbn [o_pool o_newenc o_newtype o_final o_rn o_rm o_shift_amount o_imm o_negative].
    use_has HF. rewrite Hty, Henc, U, Hs, Hwb. types. rewrite ?orif_field. unfold bitf. cbn [pl_reg].
    split; [exact F|]. eexists. split.
    + eapply proj1. eapply pld_reg_fields; [| | | |reflexivity]; lia.
    + split; [reflexivity|]. 
      eexists. ops0. split; [reflexivity|]. eexists. split; [ops0; reflexivity|]. exact M.
Qed.

(** * Halfwords and doublewords *)

Definition half_base (k : half_kind) (p : place_form) : Z :=
  Z.lor (Z.lor (Z.lor (Z.lor 0x00800090 (Z.shiftl (half_op k) 5)) (Z.shiftl (b2z (half_load k)) 20))
    (Z.shiftl (b2z (negb (pl_reg p))) 22)) (Z.shiftl (b2z (pl_pre p)) 24).
(** The word before the offset. *)
Definition half_word (k : half_kind) (p : place_form) (c vn vd : Z) (wb up : bool) : Z :=
  let x := Z.lor (Z.lor (Z.lor (Z.lor (half_base k p) (Z.shiftl c 28)) (Z.shiftl (b2z wb) 21)) (Z.shiftl vn 16)) (Z.shiftl vd 12) in
  if up then x else clear_bit x 23.
Lemma half_fields k p c vn vd wb up lo hi addr :
  0 <= c < 15 -> 0 <= vn < 16 -> 0 <= vd < 16 -> 0 <= lo < 16 -> 0 <= hi < 16 ->
  (pl_pre p = false -> wb = false) -> half_defined k vd = true -> (pl_reg p = true -> hi = 0) ->
  arm_decode addr (u32 (Z.lor (Z.lor (half_word k p c vn vd wb up) (Z.shiftl hi 8)) lo))
  = Some (AHalf c k (index_of (pl_pre p) wb) vn vd
            (if pl_reg p then OffReg (negb up) lo (ShLSL 0) else OffImm (signed_off up (16 * hi + lo)))).
Proof.
  intros Hc Hvn Hvd Hlo Hhi Hwb Hd Hr.
  assert (Hop : 0 < half_op k < 4) by (destruct k; cbn; lia).
  set (W := u32 (Z.lor (Z.lor (half_word k p c vn vd wb up) (Z.shiftl hi 8)) lo)).
  assert (F : bits W 28 4 = c /\ bits W 25 3 = 0 /\ bits W 4 1 = 1 /\ bits W 7 1 = 1 /\ bits W 5 2 = half_op k /\
    bits W 20 1 = b2z (half_load k) /\ bits W 24 1 = b2z (pl_pre p) /\ bits W 21 1 = b2z wb /\
    bits W 22 1 = b2z (negb (pl_reg p)) /\ bits W 23 1 = b2z up /\ bits W 16 4 = vn /\ bits W 12 4 = vd /\
    bits W 8 4 = hi /\ bits W 0 4 = lo).
  { unfold W, half_word, half_base. bool_ranges.
    assert (Hop' : 0 <= half_op k < 4) by lia. clear Hop.
    destruct up; fields; auto 20. }
  decompose [and] F. clear F. clearbody W.
  unfold arm_decode, decode_multiply, flag.
  repeat match goal with H : bits W _ _ = _ |- _ => rewrite H end. rewrite !b2z_eqb.
  rewrite (proj2 (Z.eqb_neq c 15)) by lia. cbn [Z.eqb Pos.eqb andb].
  assert (Eo : half_of (half_load k) (half_op k) = Some k) by (destruct k; reflexivity).
  rewrite Eo, (proj2 (Z.eqb_neq (half_op k) 0)) by lia. rewrite Hd. cbn [negb].
  destruct (pl_pre p), wb; cbn [index_of]; try (specialize (Hwb eq_refl); discriminate);
    (destruct (pl_reg p); cbn [negb]; [rewrite (Hr eq_refl)|]; reflexivity).
Qed.

Ltac half_finish := 
  split; [reflexivity|]; eexists; (split; [ops0; reflexivity|]).
Lemma word_half_base i e addr pool q k wb : word_hyps i e addr (FHalf k (PlBase wb)) q ->
  word_claim i e addr pool (FHalf k (PlBase wb)) q.
Proof.
  intros H.
  assert (wb = false) by (destruct H as (Hin & Hform & _); eapply row_half; eassumption). subst wb.
  assert (Hd : half_defined k (i_rd i) = true).
  { destruct H as (_ & _ & _ & (_ & (Qrd & _) & _) & (_ & Hs) & _). rewrite <- Qrd. destruct k; try reflexivity; exact Hs. }
  open_hyps H. settled.
  assert (Hw : i_writeback i = false) by (apply Hwb; destruct k; reflexivity). clear Hwb.
  row0. emit0. split; [destruct k; exact Logic.I|].
  eexists. split; [|split; [reflexivity|]].
  2:{ eexists. split; [ops0; cbn [place_index]; reflexivity|reflexivity]. }
  pose proof (half_fields k (PlBase false) (i_c i) (i_rn i) (i_rd i) false true 0 0 addr) as D.
  unfold half_word, half_base in D. cbn [b2z] in D. rewrite !Z.shiftl_0_l, !Z.lor_0_r in D.
  rewrite D; try assumption; try lia; try reflexivity; try discriminate.
Qed.
Lemma word_half_reg i e addr pool q k post : word_hyps i e addr (FHalf k (PlReg post)) q ->
  word_claim i e addr pool (FHalf k (PlReg post)) q.
Proof.
  intros H.
  assert (Hd : half_defined k (i_rd i) = true).
  { destruct H as (_ & _ & _ & (_ & (Qrd & _) & _) & (_ & Hs) & _). rewrite <- Qrd. destruct k; try reflexivity; exact Hs. }
  open_hyps H. settled.
  assert (Hw : pl_pre (PlReg post) = false -> i_writeback i = false).
  { intros E. apply Hwb. destruct post; [destruct k; reflexivity|discriminate]. }
  assert (Hw2 : half_sign k = false -> i_writeback i = false) by (intros E; apply Hwb; destruct k; try reflexivity; discriminate).
  assert (HU : i_use_shift i = false) by (apply Hus; destruct k; reflexivity).
  assert (HS : q_shift q = WNone) by (unfold shift_of in Qsh; rewrite HU in Qsh; exact Qsh).
  assert (Hix : index_of (pl_pre (PlReg post)) (i_writeback i) = place_index (PlReg post) false q).
  { cbn [place_index pl_pre]. rewrite Qwb. destruct post; [rewrite (Hw eq_refl)|]; reflexivity. }
  assert (Hfit : forall int, arm_fits (FHalf k (PlReg post)) q addr pool int).
  { intros int. destruct k; cbn; rewrite HS; exact Logic.I. }
  row0.
  pose proof (half_fields k (PlReg post) (i_c i) (i_rn i) (i_rd i) (i_writeback i)
    (negb (takes_sign (FHalf k (PlReg post)) && negb (i_signplus i))) (i_rm i) 0 addr) as D.
  rewrite Z.shiftl_0_l, Z.lor_0_r, negb_involutive in D.
  specialize (D Wc Wrn Wrd Wrm ltac:(lia) Hw Hd ltac:(reflexivity)).
  destruct k; emit0; (split; [apply Hfit|]);
    match type of D with context [arm_decode addr ?V] =>
      match goal with |- context [arm_decode addr ?W] =>
        replace W with V by (unfold half_word, half_base; destruct (i_signplus i); reflexivity) end end;
    rewrite D, Hix; eexists; (split; [reflexivity|]); half_finish; eexists; (split; [ops0; reflexivity|]); rewrite HS; reflexivity.
Qed.
