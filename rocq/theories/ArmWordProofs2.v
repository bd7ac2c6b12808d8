(** ARM words decode to the instructions that the source lines ask for: forms without an immediate. *)

Require Import ZArith Lia Bool List String Ascii.
Require Import ZifyBool Btauto.
Require Import Verif.Ints Verif.IntsLemmas Verif.BitFields Verif.Res Verif.ArmModel Verif.ArmLineModel Verif.ArmSpec
  Verif.ArmIface Verif.ArmProofs Verif.ArmShiftProofs Verif.ArmWordSpec Verif.ArmRowProofs Verif.ArmWordIface
  Verif.ArmWordProofs.
Import ListNotations.
Local Open Scope Z_scope.
Ltac Zify.zify_post_hook ::= Z.div_mod_to_equations.

(** The claim for one line. *)
Definition word_claim (i : arm_in) (e : arm_eval) (addr pool : Z) (f : aform) (q : aops) : Prop :=
  match arm_emit i addr e pool with
  | ROk (w, lit) => arm_fits f q addr pool (int_imm (e_imm e)) /\
      exists a, arm_decode addr w = Some a /\ arm_means f q addr lit pool a
  | RErr => ~ arm_fits f q addr pool (int_imm (e_imm e))
  | RUb => arm_undefined f q addr pool
  end.
Definition word_hyps (i : arm_in) (e : arm_eval) (addr : Z) (f : aform) (q : aops) : Prop :=
  In (i_op i) ArmOpcodes /\ arm_form (op_name (i_op i)) (op_mask (i_op i)) = Some f /\ line_wf i f /\
  agrees i e f q /\ arm_sane f q /\ addr mod 4 = 0.

Ltac types := cbn [Z.eqb Pos.eqb ARM_TYPE3 ARM_TYPE4 ARM_TYPE5 ARM_TYPE6 ARM_TYPE7 ARM_TYPE8 ARM_TYPE9 ARM_TYPE10 ARM_TYPE11
    ARM_TYPE12 ARM_MISC ARM_TYPE13 ARM_TYPE14 ARM_TYPE15 ARM_TYPE16 ARM_TYPE17 orb andb negb rbind].
Ltac use_has HF :=
  repeat match goal with |- context [has ?o ?F] =>
    rewrite (HF F eq_refl);
    match goal with |- context [existsb (Z.eqb F) ?l] =>
      let b := eval vm_compute in (existsb (Z.eqb F) l) in change (existsb (Z.eqb F) l) with b end
  end.
Ltac open_hyps H :=
  destruct H as (Hin & Hform & (Hwf & Hsty & Hs & Hus & Hwb & Hpsr & Hbyr & Hbl) &
                 ((Qc & Qs & Qa & Qx & Qy) & (Qrd & Qrn & Qrm & Qrs) & (Qsp & Qfi & Qmi & Qwb & Qus & Qli) &
                  (Qcp & Qcrd & Qcrn & Qcrm) & Qsh & Qimm & Qcop & Qshort) & (Hss & Hsane) & Hal);
  destruct Hwf as (Wc & Wrd & Wrn & Wrm & Wrs & Wsr & Wcd & Wcn & Wcm & Wpn & Wa & Wf & Wl).
Ltac settled :=
  try (match goal with H : takes_s _ = false -> _ |- _ => specialize (H eq_refl) end);
  try (match goal with H : takes_shift _ = false -> _ |- _ => specialize (H eq_refl) end);
  try (match goal with H : takes_wb _ = false -> _ |- _ => specialize (H eq_refl) end);
  try (match goal with H : takes_imm _ = true -> imm_word _ = _ |- _ => specialize (H eq_refl) end);
  try (match goal with H : takes_imm _ = true -> i_bitlen _ = _ |- _ => specialize (H eq_refl); cbn [imm_len] in H end).
Ltac bool_ranges :=
  repeat match goal with
  | |- context [b2z ?b] => lazymatch goal with H : 0 <= b2z b < 2 |- _ => fail | _ => pose proof (b2z_range b) end
  end.
Ltac emit_open HF Hty Henc :=
  unfold word_claim, arm_emit, arm_validate; use_has HF;
  try (match goal with H : i_use_shift _ = false |- _ => rewrite H end); types;
  unfold arm_encode; cbn [o_pool o_newenc o_newtype o_final o_rn o_rm o_shift_amount o_imm o_negative];
  use_has HF; rewrite Hty, Henc;
  try (match goal with H : i_use_shift _ = false |- _ => rewrite H end);
  try (match goal with H : i_s _ = false |- _ => rewrite H end);
  try (match goal with H : i_writeback _ = false |- _ => rewrite H end);
  types; rewrite ?orif_field; unfold bitf.
Lemma bits_clear_other' x n lo len : 0 <= n -> 0 <= lo -> 0 <= len -> (lo + len <= n \/ n < lo) ->
  bits (clear_bit x n) lo len = bits x lo len.
Proof. apply bits_clear_other. Qed.
Lemma bits_clear_same' x n : 0 <= n -> bits (clear_bit x n) n 1 = 0.
Proof. apply bits_clear_same. Qed.
(** Reading fields with side conditions that are settled without arithmetic. *)
Ltac cst_side := vm_compute; first [ discriminate | reflexivity ].
Ltac rng_side :=
  match goal with
  | |- 0 <= ?v < ?m => first
      [ match goal with H : 0 <= v < ?n |- _ =>
          exact (conj (proj1 H) (Z.lt_le_trans v n m (proj2 H) ltac:(vm_compute; discriminate))) end
      | lia ]
  end.
Ltac f_side := lazymatch goal with |- _ /\ _ => rng_side | |- _ => cst_side end.
Ltac fstep :=
  match goal with
  | |- context [bits (Z.lor ?a ?b) ?lo ?len] => rewrite (bits_lor a b lo len) by cst_side
  | |- context [bits (u32 ?a) ?lo ?len] => rewrite (bits_u32 a lo len) by cst_side
  | |- context [bits (clear_bit ?x ?n) ?lo ?len] =>
      let t := eval vm_compute in ((lo + len <=? n) || (n <? lo)) in
      match t with
      | true => rewrite (bits_clear_other' x n lo len) by first [ cst_side | clear; lia ]
      | false => rewrite (bits_clear_same' x n) by cst_side
      end
  | |- context [bits ?v ?lo ?len] =>
      is_cst v; let k := eval vm_compute in (bits v lo len) in change (bits v lo len) with k
  | |- context [bits (Z.shiftl ?v ?p) ?lo ?len] =>
      let t := eval vm_compute in (if lo + len <=? p then 0 else if p <=? lo then 1 else 2) in
      match t with
      | 0 => rewrite (bits_shiftl_above v p lo len) by cst_side
      | 1 => rewrite (bits_shiftl_low v p lo len) by cst_side;
             let k := eval vm_compute in (lo - p) in change (lo - p) with k
      | 2 => rewrite (bits_shiftl_inside v p lo len) by f_side;
             let k := eval vm_compute in (p - lo) in change (p - lo) with k
      end
  | |- context [bits ?v 0 ?len] => rewrite (bits_id v len) by f_side
  | |- context [bits ?v ?lo ?len] => rewrite (bits_small v lo len) by f_side
  end.
Ltac fnorm := repeat fstep; rewrite ?Z.lor_0_l, ?Z.lor_0_r, ?Z.shiftl_0_r.
Ltac field_of W lo len :=
  let E := fresh "E" in eassert (E : bits W lo len = _) by (progress fnorm; reflexivity); rewrite E; clear E.
Ltac fields :=
  repeat match goal with |- context [bits ?W ?lo ?len] => is_cst lo; is_cst len; field_of W lo len end.
Ltac not15 :=
  repeat match goal with |- context [?c =? 15] =>
    match goal with H : 0 <= c < 15 |- _ =>
      rewrite (proj2 (Z.eqb_neq c 15) ltac:(let K := fresh in intro K; clear - H K; lia)) end end.
Ltac dec := bool_ranges; unfold arm_decode, decode_multiply, decode_misc, flag; fields; not15.

Ltac row Hin Hform HF Hty Henc :=
  let R := fresh in
  pose proof (row_facts _ _ _ _ _ _ Hin Hform eq_refl) as R; destruct R as (Hty & Henc & HF).

Lemma word_bx i e addr pool q l : word_hyps i e addr (FBx l) q -> word_claim i e addr pool (FBx l) q.
Proof.
  intros H. open_hyps H. settled. row Hin Hform HF Hty Henc. emit_open HF Hty Henc.
  split; [exact Logic.I|]. cbn [arm_means]. rewrite Qc, Qrn. eexists. split; [|split; reflexivity].
  dec. destruct l; reflexivity.
Qed.

(** The same with the names found. *)
Ltac row0 :=
  lazymatch goal with H1 : In (i_op ?i) ArmOpcodes, H2 : arm_form (op_name (i_op ?i)) _ = Some _ |- _ =>
    let Hty := fresh "Hty" in let Henc := fresh "Henc" in let HF := fresh "HF" in row H1 H2 HF Hty Henc end.
Ltac emit0 :=
  lazymatch goal with
  | HF : forall F : Z, existsb (Z.eqb F) relevant = true -> _, Hty : op_type _ = _, Henc : op_encoding _ = _ |- _ =>
      emit_open HF Hty Henc
  end.
Ltac ops0 :=
  repeat match goal with
  | H : ?f ?q = _ |- context [?f ?q] => match type of q with aops => rewrite H end
  end.
Ltac plain H :=
  open_hyps H; settled; row0; emit0;
  (split; [exact Logic.I|]); cbn [arm_means]; ops0.
Lemma word_nop i e addr pool q : word_hyps i e addr FNop q -> word_claim i e addr pool FNop q.
Proof.
  intros H. plain H. eexists. split; [|split; [reflexivity|]]; [|exists 14, 0; reflexivity].
  vm_compute. reflexivity.
Qed.
Lemma word_msr i e addr pool q : word_hyps i e addr (FMsr false) q -> word_claim i e addr pool (FMsr false) q.
Proof.
  intros H. plain H. eexists. split; [|split; reflexivity].
  dec. rewrite !b2z_eqb. reflexivity.
Qed.
Lemma word_mrs i e addr pool q : word_hyps i e addr FMrs q -> word_claim i e addr pool FMrs q.
Proof.
  intros H. plain H. eexists. split; [|split; reflexivity].
  dec. rewrite !b2z_eqb. reflexivity.
Qed.
Lemma word_mul i e addr pool q acc two : word_hyps i e addr (FMul acc two) q -> word_claim i e addr pool (FMul acc two) q.
Proof.
  intros H. destruct acc, two; (plain H; eexists; (split; [|split; reflexivity]); dec; rewrite !b2z_eqb; reflexivity).
Qed.
Lemma word_mull i e addr pool q s acc : word_hyps i e addr (FMull s acc) q -> word_claim i e addr pool (FMull s acc) q.
Proof.
  intros H. plain H. eexists. split; [|split; reflexivity].
  dec. destruct s, acc; rewrite !b2z_eqb; reflexivity.
Qed.
Lemma word_smla i e addr pool q : word_hyps i e addr FSmla q -> word_claim i e addr pool FSmla q.
Proof.
  intros H. plain H. eexists. split; [|split; reflexivity]. dec. rewrite !b2z_eqb. reflexivity.
Qed.
Lemma word_smlaw i e addr pool q : word_hyps i e addr FSmlaw q -> word_claim i e addr pool FSmlaw q.
Proof.
  intros H. plain H. eexists. split; [|split; reflexivity]. dec. rewrite !b2z_eqb. reflexivity.
Qed.
Lemma word_smulw i e addr pool q : word_hyps i e addr FSmulw q -> word_claim i e addr pool FSmulw q.
Proof.
  intros H. plain H. eexists. split; [|split; reflexivity]. dec. rewrite !b2z_eqb. reflexivity.
Qed.
Lemma word_smlal i e addr pool q : word_hyps i e addr FSmlal q -> word_claim i e addr pool FSmlal q.
Proof.
  intros H. plain H. eexists. split; [|split; reflexivity]. cbn in Hsane. rewrite Qx in Hsane. rewrite Hsane.
  dec. rewrite !b2z_eqb. reflexivity.
Qed.
Lemma word_smul i e addr pool q : word_hyps i e addr FSmul q -> word_claim i e addr pool FSmul q.
Proof.
  intros H. plain H. eexists. split; [|split; reflexivity]. dec. rewrite !b2z_eqb. reflexivity.
Qed.
Lemma word_swp i e addr pool q b two : word_hyps i e addr (FSwp b two) q -> word_claim i e addr pool (FSwp b two) q.
Proof.
  intros H. destruct two; (plain H; eexists; (split; [|split; reflexivity]); dec; destruct b; reflexivity).
Qed.
Lemma word_clz i e addr pool q : word_hyps i e addr FClz q -> word_claim i e addr pool FClz q.
Proof.
  intros H. plain H. eexists. split; [|split; reflexivity]. dec. reflexivity.
Qed.
Lemma word_sat i e addr pool q op two : word_hyps i e addr (FSat op two) q -> word_claim i e addr pool (FSat op two) q.
Proof.
  intros H. assert (Ho : 0 <= op < 4) by (destruct H as (Hin & Hform & _); eapply row_sat; eassumption).
  destruct two; (plain H; eexists; (split; [|split; reflexivity]); dec; reflexivity).
Qed.

Lemma modes_range l a : 0 <= a < 8 -> let m := if l : bool then LdmModes a else StmModes a in
  0 <= m < 4 /\ (bits m 1 1 =? 1) = block_before l a /\ (bits m 0 1 =? 1) = block_up l a.
Proof.
  intros H. assert (E : a = 0 \/ a = 1 \/ a = 2 \/ a = 3 \/ a = 4 \/ a = 5 \/ a = 6 \/ a = 7) by lia.
  destruct E as [E|[E|[E|[E|[E|[E|[E|E]]]]]]]; subst a; destruct l; vm_compute; intuition (discriminate || reflexivity).
Qed.
Lemma word_block i e addr pool q l : word_hyps i e addr (FBlock l) q -> word_claim i e addr pool (FBlock l) q.
Proof.
  intros H. destruct l; plain H; (eexists; split; [|split; [reflexivity|ops0; reflexivity]]).
  - destruct (modes_range true (i_a i) Wa) as (M & B & U). set (m := LdmModes (i_a i)) in *. clearbody m.
    dec. rewrite B, U, !b2z_eqb. reflexivity.
  - destruct (modes_range false (i_a i) Wa) as (M & B & U). set (m := StmModes (i_a i)) in *. clearbody m.
    dec. rewrite B, U, !b2z_eqb. reflexivity.
Qed.
Lemma word_push i e addr pool q : word_hyps i e addr FPush q -> word_claim i e addr pool FPush q.
Proof.
  intros H. plain H. eexists. split; [|split; [reflexivity|ops0; reflexivity]]. rewrite Hpsr. dec. reflexivity.
Qed.
Lemma word_pop i e addr pool q : word_hyps i e addr FPop q -> word_claim i e addr pool FPop q.
Proof.
  intros H. plain H. eexists. split; [|split; [reflexivity|ops0; reflexivity]]. rewrite Hpsr. dec. reflexivity.
Qed.
