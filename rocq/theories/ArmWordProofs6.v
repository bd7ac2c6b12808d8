(** ARM words decode to the instructions that the source lines ask for: addresses, status register,
    interrupts, branches, data processing, coprocessors; all forms together. *)

Require Import ZArith Lia Bool List String Ascii.
Require Import ZifyBool Btauto.
Require Import Verif.Ints Verif.IntsLemmas Verif.BitFields Verif.Res Verif.ArmModel Verif.ArmLineModel Verif.ArmSpec
  Verif.ArmIface Verif.ArmProofs Verif.ArmImmProofs Verif.ArmShiftProofs Verif.ArmBranchProofs Verif.ArmCopProofs
  Verif.ArmWordSpec Verif.ArmRowProofs Verif.ArmWordIface
  Verif.ArmWordProofs Verif.ArmWordProofs2 Verif.ArmWordProofs3 Verif.ArmWordProofs4 Verif.ArmWordProofs5.
Import ListNotations.
Local Open Scope Z_scope.
Ltac Zify.zify_post_hook ::= Z.div_mod_to_equations.

Lemma rok {A} {a b : A} : ROk a = ROk b -> a = b.
Proof. congruence. Qed.
Lemma word_adr i e addr pool q : word_hyps i e addr FAdr q -> word_claim i e addr pool FAdr q.
Proof.
  intros H. open_hyps H. settled. row0.
  destruct (imm_word_s32 _ _ Qimm) as (RQ & _).
  unfold word_claim, arm_emit, arm_validate. use_has HF. rewrite Hus. types.
  rewrite (check_shifted i addr (e_imm e) (q_imm q) Qimm Hbl ltac:(has_by HF ARM_SHIFT)).
  unfold validate_shifted. use_has HF. types.
  assert (E : s32 (s32 (q_imm q) - Z.land (addr + 8) (Z.lnot 3)) = pc_distance addr (q_imm q)).
  { replace (Z.land (addr + 8) (Z.lnot 3)) with (addr + 8).
    - unfold pc_distance. apply s32_same. pose proof (s32_mod (q_imm q)). lia.
    - change (Z.lnot 3) with (Z.lnot (Z.ones 2)). rewrite <- Z.ldiff_land. rewrite Z.ldiff_ones_r by lia.
      rewrite Z.shiftl_mul_pow2, Z.shiftr_div_pow2 by lia. change (2 ^ 2) with 4. lia. }
  rewrite E. clear E. set (d := pc_distance addr (q_imm q)).
  assert (R : -2147483648 <= d < 2147483648) by (unfold d, pc_distance; apply s32_range).
  assert (M : d mod 4294967296 = (q_imm q - addr - 8) mod 4294967296) by (unfold d, pc_distance; apply s32_mod).
  assert (A : match (if d <? 0 then do a <- abs_int d; ROk (a, Some (Z.lxor (op_encoding (i_op i)) 12582912))
                     else ROk (d, None)) with
              | ROk (a, enc) => a = Z.abs d /\ enc = (if d <? 0 then Some 0x024f0000 else None) /\ 0 <= a < 2147483648
              | RErr => False
              | RUb => d = -2147483648
              end).
  { rewrite Henc. destruct (Z.ltb_spec d 0).
    - pose proof (abs_int_cases d R) as B. destruct (abs_int d) as [a| |]; cbn [rbind]; [|destruct B|exact B].
      destruct B as (-> & B). split; [reflexivity|]. split; [reflexivity|]. lia.
    - split; [lia|]. split; [reflexivity|]. lia. }
  cbn [andb]. 
  destruct (if d <? 0 then _ else _) as [[a enc]| |]; cbn [rbind]; [|destruct A|].
  2:{ cbn [arm_undefined]. unfold u32. rewrite <- M, A. reflexivity. }
  destruct A as (Ea & -> & Ra).
  pose proof (shifted_immediate_spec a) as S. rewrite (u32_small a) in S by lia.
  cbn [arm_fits]. fold d. rewrite <- Ea.
  destruct (getShiftedImmediate a) as [[t s]|].
  - destruct S as (r & -> & Hr & Hb & Ev & _). cbn [rbind im_shift im_imm im_neg im_enc im_type im_pool].
    cbn [o_pool rbind]. unfold arm_encode. cbn [o_pool o_newenc o_newtype o_final o_rn o_rm o_shift_amount o_imm o_negative rbind].
    use_has HF. rewrite Hty, Henc. types.
    split; [exists t, r; auto|]. eexists. split.
    + eapply (dpi_fields (if d <? 0 then 2 else 4) (i_c i) 15 (i_rd i) (i_s i) r t); try lia; [destruct (d <? 0); lia|destruct (d <? 0); reflexivity|].
      unfold dpi_word, b2z. destruct (d <? 0), (i_s i); rewrite ?Z.shiftl_0_l, ?Z.lor_0_r; reflexivity.
    + split; [reflexivity|]. exists (if d <? 0 then 2 else 4), a. rewrite <- Ev, Qc, Qrd, Qs. split; [reflexivity|].
      assert (Eq : forall x, x mod 4294967296 = q_imm q mod 4294967296 -> u32 x = q_imm q).
      { clear - RQ. unfold u32. intros x ->. apply Z.mod_small. exact RQ. }
      destruct (Z.ltb_spec d 0); [right|left]; (split; [reflexivity|]); apply Eq; lia.
  - exact S.
Qed.

Lemma msr_decode addr c sp fi r b w : 0 <= c < 15 -> 0 <= fi < 16 -> 0 <= r < 16 -> 0 <= b < 256 ->
  w = Z.lor (Z.lor (Z.lor (Z.lor (Z.lor 0x0320f000 (Z.shiftl c 28)) (Z.shiftl (b2z sp) 22)) (Z.shiftl fi 16)) (Z.shiftl (2 * r) 7)) b ->
  arm_decode addr (u32 w) = Some (AMsr c sp fi (OpImm (ror32 b (2 * r)))).
Proof.
  intros Hc Hf Hr Hb ->. replace (Z.shiftl (2 * r) 7) with (Z.shiftl r 8) by (rewrite !shiftl_mul by lia; lia).
  set (W := u32 _).
  assert (F : bits W 28 4 = c /\ bits W 25 3 = 1 /\ bits W 23 2 = 2 /\ bits W 20 1 = 0 /\ bits W 21 1 = 1 /\
              bits W 12 4 = 15 /\ bits W 22 1 = b2z sp /\ bits W 16 4 = fi /\ bits W 0 12 = Z.lor (Z.shiftl r 8) b).
  { unfold W. bool_ranges. fields. auto 20. }
  clearbody W. destruct F as (F1 & F2 & F3 & F4 & F5 & F6 & F7 & F8 & F9).
  unfold arm_decode, flag. rewrite F1, F2, F3, F4, F5, F6, F7, F8, F9. rewrite b2z_eqb.
  replace (c =? 15) with false by lia. cbn [Z.eqb Pos.eqb andb negb]. do 3 f_equal.
  rewrite shiftl_mul by lia. rewrite lor_mul_pow2_small by lia. rewrite arm_expand_imm_fields by lia. reflexivity.
Qed.
Lemma word_msr_imm i e addr pool q : word_hyps i e addr (FMsr true) q -> word_claim i e addr pool (FMsr true) q.
Proof.
  intros H. open_hyps H. settled. row0.
  destruct (imm_word_s32 _ _ Qimm) as (RQ & _).
  unfold word_claim, arm_emit, arm_validate. use_has HF. rewrite Hus. types.
  rewrite (check_shifted i addr (e_imm e) (q_imm q) Qimm Hbl ltac:(has_by HF ARM_SHIFT)).
  unfold validate_shifted. use_has HF. types.
  pose proof (shifted_immediate_spec (s32 (q_imm q))) as S. rewrite u32_s32, (u32_small (q_imm q)) in S by exact RQ.
  destruct (getShiftedImmediate (s32 (q_imm q))) as [[t s]|].
  - destruct S as (r & -> & Hr & Hb & Ev & _). cbn [rbind im_shift im_imm im_neg im_enc im_type im_pool].
    cbn [o_pool rbind]. unfold arm_encode. cbn [o_pool o_newenc o_newtype o_final o_rn o_rm o_shift_amount o_imm o_negative rbind].
    use_has HF. rewrite Hty, Henc, Hs. types.
    split; [exists t, r; auto|]. eexists. split.
    + eapply (msr_decode addr (i_c i) (i_spsr i) (i_field i) r t); try lia.
      unfold b2z. destruct (i_spsr i); rewrite ?Z.shiftl_0_l, ?Z.lor_0_r; reflexivity.
    + split; [reflexivity|]. rewrite <- Ev, Qc, Qsp, Qfi. reflexivity.
  - exact S.
Qed.

Lemma swi_decode addr c n w : 0 <= c < 15 -> 0 <= n < 16777216 -> w = Z.lor (Z.lor 0x0f000000 (Z.shiftl c 28)) n ->
  arm_decode addr (u32 w) = Some (ASwi c n).
Proof.
  intros Hc Hn ->. set (W := u32 _).
  assert (F : bits W 28 4 = c /\ bits W 25 3 = 7 /\ bits W 24 1 = 1 /\ bits W 0 24 = n) by (unfold W; fields; auto).
  clearbody W. destruct F as (F1 & F2 & F3 & F4). unfold arm_decode, flag. rewrite F1, F2, F3, F4.
  replace (c =? 15) with false by lia. reflexivity.
Qed.
Lemma word_swi i e addr pool q : word_hyps i e addr FSwi q -> word_claim i e addr pool FSwi q.
Proof.
  intros H. open_hyps H. settled. row0.
  destruct (imm_word_s32 _ _ Qimm) as (RQ & _).
  unfold word_claim, arm_emit, arm_validate. use_has HF. rewrite Hus. types.
  pose proof (check_swi i addr (e_imm e) (q_imm q) 24) as V.
  specialize (V Qimm Hbl ltac:(lia) ltac:(has_by HF ARM_SHIFT) ltac:(has_by HF ARM_POOL) ltac:(has_by HF ARM_BRANCH)
                ltac:(has_by HF ARM_ABSIMM) ltac:(has_by HF ARM_SWI) ltac:(has_by HF ARM_ABS) ltac:(lia)).
  cbv zeta in V. rewrite <- Qshort in V. fold (swi_number q) in V.
  destruct (validate_imm i addr (e_imm e)) as [r| |]; cbn [rbind].
  - destruct V as (Vi & Vn & ->). cbn [rbind im_shift im_imm im_neg im_enc im_type im_pool].
    cbn [o_pool rbind]. unfold arm_encode. cbn [o_pool o_newenc o_newtype o_final o_rn o_rm o_shift_amount o_imm o_negative rbind].
    use_has HF. rewrite Hty, Henc, Hs. types.
    split; [split; [exact Vi|exact Vn]|]. eexists. split.
    + eapply (swi_decode addr (i_c i) (swi_number q)); [lia| |reflexivity].
      split; [|exact Vn]. unfold swi_number. clear - RQ. destruct (q_short q && (q_imm q <? 255)); lia.
    + split; [reflexivity|]. rewrite Qc. reflexivity.
  - exact V.
  - exact V.
Qed.

Lemma bkpt_decode addr n w : 0 <= n < 65536 -> w = Z.lor (Z.lor 0xe1200070 (n mod 16)) (Z.shiftl (n / 16) 8) ->
  arm_decode addr (u32 w) = Some (ABkpt n).
Proof.
  intros Hn ->. set (W := u32 _).
  assert (Ha : 0 <= n / 16 < 4096) by lia. assert (Hb : 0 <= n mod 16 < 16) by lia.
  assert (F : bits W 28 4 = 14 /\ bits W 25 3 = 0 /\ bits W 24 1 = 1 /\ bits W 23 2 = 2 /\ bits W 20 1 = 0 /\
              bits W 21 2 = 1 /\ bits W 4 3 = 7 /\ bits W 8 12 = n / 16 /\ bits W 0 4 = n mod 16 /\ bits W 4 1 = 1 /\ bits W 7 1 = 0).
  { unfold W. generalize dependent (n / 16). generalize dependent (n mod 16). clear. intros b Hb a V Ha. clear V. fields. auto 20. }
  clearbody W. destruct F as (F1 & F2 & F3 & F4 & F5 & F6 & F7 & F8 & F9 & F10 & F11).
  unfold arm_decode, flag. rewrite F1, F2. cbn [Z.eqb Pos.eqb]. rewrite ?F4, ?F5, ?F10, ?F11. cbn [Z.eqb Pos.eqb andb negb].
  unfold decode_misc, flag. rewrite ?F1, ?F3, ?F5, ?F6, ?F7, ?F8, ?F9, ?F10, ?F11. cbn [Z.eqb Pos.eqb andb negb].
  do 2 f_equal. lia.
Qed.
Lemma word_bkpt i e addr pool q : word_hyps i e addr FBkpt q -> word_claim i e addr pool FBkpt q.
Proof.
  intros H. open_hyps H. settled. row0.
  destruct (imm_word_s32 _ _ Qimm) as (RQ & _).
  unfold word_claim, arm_emit, arm_validate. use_has HF. rewrite Hus. types.
  pose proof (check_plain i addr (e_imm e) (q_imm q) 16) as V.
  specialize (V Qimm Hbl ltac:(lia) ltac:(has_by HF ARM_SHIFT) ltac:(has_by HF ARM_POOL) ltac:(has_by HF ARM_BRANCH)
                ltac:(has_by HF ARM_ABSIMM) ltac:(has_by HF ARM_SWI) ltac:(has_by HF ARM_ABS)).
  destruct (validate_imm i addr (e_imm e)) as [r| |]; cbn [rbind].
  - destruct V as (Vi & Vn & ->). change (2 ^ 16) with 65536 in Vn. cbn [rbind im_shift im_imm im_neg im_enc im_type im_pool].
    cbn [o_pool rbind]. unfold arm_encode. cbn [o_pool o_newenc o_newtype o_final o_rn o_rm o_shift_amount o_imm o_negative rbind].
    use_has HF. rewrite Hty, Henc, Hs. types.
    assert (Esh : Z.shiftr (q_imm q) 4 = q_imm q / 16) by (rewrite Z.shiftr_div_pow2 by lia; reflexivity).
    unfold shl_int. rewrite Esh. replace (q_imm q / 16 <? 0) with false by lia. cbn [rbind].
    split; [split; [exact Vi|exact Vn]|]. eexists. split.
    + eapply (bkpt_decode addr (q_imm q)); [lia|].
      change 15 with (Z.ones 4). rewrite Z.land_ones by lia. reflexivity.
    + split; reflexivity.
  - exact V.
  - destruct V.
Qed.

(** * Lines that add nothing to the literal pool *)

Lemma pool_rows : forallb (fun o => match arm_form (op_name o) (op_mask o) with
    | Some FLiteral => true | _ => negb (has o ARM_POOL) end) ArmOpcodes = true.
Proof. vm_compute. reflexivity. Qed.
Lemma row_no_pool o f : In o ArmOpcodes -> arm_form (op_name o) (op_mask o) = Some f -> f <> FLiteral ->
  has o ARM_POOL = false.
Proof.
  intros Hin Hf N. pose proof pool_rows as H. rewrite forallb_forall in H. specialize (H _ Hin). rewrite Hf in H.
  apply negb_true_iff. destruct f; auto; contradiction.
Qed.
Definition no_lit (r : arm_imm_out) : Prop := im_pool r = None.
Lemma imm_no_lit i addr v r : has (i_op i) ARM_POOL = false -> validate_imm i addr v = ROk r -> im_pool r = None.
Proof.
  intros Hp. unfold validate_imm. rewrite Hp.
  destruct (match v with IInt z => ROk (s32 z) | IFloat b => _ | IBad => RErr end) as [imm| |]; cbn [rbind]; try discriminate.
  cbv zeta.
  assert (K : forall (b : bool) (c : res Z) (m : Z) a,
    (if b then do check <- c; if u32 check >=? m then RErr else ROk a else ROk a) = ROk r -> im_pool a = None -> im_pool r = None).
  { intros b c m a. destruct b; [|intros X; rewrite <- (rok X); auto].
    destruct c; cbn [rbind]; try discriminate.
    destruct (_ >=? _); [discriminate|]. intros X; rewrite <- (rok X); auto. }
  destruct (has (i_op i) ARM_SHIFT).
  - unfold validate_shifted.
    destruct (if has _ ARM_ABS && _ then _ else _) as [[x neg]| |]; cbn [rbind]; try discriminate.
    destruct (if has _ ARM_PCR then _ else _) as [[y enc]| |]; cbn [rbind]; try discriminate.
    destruct (getShiftedImmediate y) as [[t s]|]; cbn [rbind]; [intros X; apply (K _ _ _ _ X); reflexivity|].
    destruct (has (i_op i) ARM_OPTIMIZE); [|discriminate].
    destruct (arm_optimize _ _ _) as [e' i']. destruct (getShiftedImmediate i') as [[t s]|]; cbn [rbind]; [|discriminate].
    intros X; apply (K _ _ _ _ X); reflexivity.
  - destruct (has (i_op i) ARM_BRANCH).
    { destruct (if has _ ARM_HALFWORD then _ else _); [discriminate|].
      destruct (abs_int _); cbn [rbind]; try discriminate. destruct (_ >=? _); [discriminate|].
      intros X; apply (K _ _ _ _ X); reflexivity. }
    destruct (has (i_op i) ARM_ABSIMM).
    { destruct (abs_int _); cbn [rbind]; try discriminate. destruct (_ >=? _); [discriminate|].
      intros X; apply (K _ _ _ _ X); reflexivity. }
    destruct (has (i_op i) ARM_SWI).
    { destruct (_ && _); [destruct (imm <? 0); [discriminate|]|]; intros X; apply (K _ _ _ _ X); reflexivity. }
    destruct (_ && _); [|intros X; apply (K _ _ _ _ X); reflexivity].
    destruct (abs_int _); cbn [rbind]; try discriminate. intros X; apply (K _ _ _ _ X); reflexivity.
Qed.
Lemma validate_no_lit i addr e s : has (i_op i) ARM_POOL = false -> arm_validate i addr e = ROk s -> o_pool s = None.
Proof.
  intros Hp. unfold arm_validate.
  destruct (if i_use_shift i && _ then _ else _) as [f| |]; cbn [rbind]; try discriminate.
  destruct (if has _ ARM_COPOP then _ else _) as [p| |]; cbn [rbind]; try discriminate.
  destruct (if has _ ARM_COPINF then _ else _) as [n| |]; cbn [rbind]; try discriminate.
  destruct (_ && _); [discriminate|]. destruct (has (i_op i) ARM_IMMEDIATE).
  - pose proof (imm_no_lit i addr (e_imm e)) as L. destruct (validate_imm _ _ _) as [r| |]; cbn [rbind]; try discriminate.
    intros X. rewrite <- (rok X). apply (L r Hp eq_refl).
  - intros X. rewrite <- (rok X). reflexivity.
Qed.
Lemma emit_plain i addr e pool : has (i_op i) ARM_POOL = false ->
  arm_emit i addr e pool = (do w <- arm_assemble i addr e; ROk (w, None)).
Proof.
  intros Hp. unfold arm_emit, arm_assemble. pose proof (validate_no_lit i addr e) as L.
  destruct (arm_validate i addr e) as [s| |]; cbn [rbind]; try reflexivity.
  rewrite (L s Hp eq_refl). reflexivity.
Qed.

(** * Which table a form comes from *)

Definition source_ok (o : arm_opcode) : bool :=
  match arm_form (op_name o) (op_mask o) with
  | Some (FBranch k) => match branch_form (op_name o) (op_mask o) with Some _ => true | None => false end
  | Some (FDpImm _ _ _) => match dp_imm_form (op_name o) (op_mask o) with
      | Some (opc, _, _) => (0 <=? opc) && (opc <? 16) | None => false end
  | Some (FDpReg _ _ _ _) => match dp_reg_form (op_name o) (op_mask o) with
      | Some (opc, _, _, _) => (0 <=? opc) && (opc <? 16) | None => false end
  | Some (FCop _ _ _) => match cop_form (op_name o) (op_mask o) with
      | Some (KMcrr, u, _) | Some (KMrrc, u, _) => negb u | Some _ => true | None => false end
  | _ => true
  end.
Lemma sources_ok : forallb source_ok ArmOpcodes = true.
Proof. vm_compute. reflexivity. Qed.
Lemma row_source o f : In o ArmOpcodes -> arm_form (op_name o) (op_mask o) = Some f ->
  match f with
  | FBranch k => branch_form (op_name o) (op_mask o) = Some k
  | FDpImm opc sn sd => dp_imm_form (op_name o) (op_mask o) = Some (opc, sn, sd) /\ 0 <= opc < 16
  | FDpReg opc sn sd sm => dp_reg_form (op_name o) (op_mask o) = Some (opc, sn, sd, sm) /\ 0 <= opc < 16
  | FCop k u inf => cop_form (op_name o) (op_mask o) = Some (k, u, inf) /\ (k = KMcrr \/ k = KMrrc -> u = false)
  | _ => True
  end.
Proof.
  intros Hin Hf. pose proof sources_ok as H. rewrite forallb_forall in H. specialize (H _ Hin).
  unfold source_ok in H. rewrite Hf in H. unfold arm_form in Hf.
  destruct (branch_form (op_name o) (op_mask o)) as [k|].
  { injection Hf as <-. reflexivity. }
  destruct (dp_imm_form (op_name o) (op_mask o)) as [[[opc sn] sd]|].
  { injection Hf as <-. split; [reflexivity|]. lia. }
  destruct (dp_reg_form (op_name o) (op_mask o)) as [[[[opc sn] sd] sm]|].
  { injection Hf as <-. split; [reflexivity|]. lia. }
  destruct (cop_form (op_name o) (op_mask o)) as [[[k u] inf]|].
  { injection Hf as <-. split; [reflexivity|]. intros [-> | ->]; apply negb_true_iff; exact H. }
  destruct f; try exact Logic.I; discriminate.
Qed.

Lemma branch_fits i addr e k w z : In (i_op i) ArmOpcodes -> branch_form (op_name (i_op i)) (op_mask (i_op i)) = Some k ->
  imm_word (e_imm e) = Some z -> i_use_shift i = false -> arm_assemble i addr e = ROk w ->
  int_imm (e_imm e) = true /\ z mod branch_align k = 0 /\ Z.abs (pc_distance addr z) < 33554432.
Proof.
  intros Hin Hf Hz Hus. pose proof br_rows_ok as Hr. rewrite forallb_forall in Hr. specialize (Hr _ Hin).
  unfold br_row_ok in Hr. rewrite Hf in Hr. repeat rewrite andb_true_iff in Hr. decompose [and] Hr. clear Hr.
  repeat match goal with
  | H : (_ =? _) = true |- _ => apply Z.eqb_eq in H
  | H : negb _ = true |- _ => apply negb_true_iff in H
  end.
  unfold arm_assemble, arm_validate, validate_imm. rewrite Hus.
  repeat match goal with H : has _ _ = _ |- _ => rewrite H end. cbn [andb rbind negb].
  destruct (imm_word_s32 _ _ Hz) as (RQ & [(x & Ex & E)|(x & Ex & E)]); rewrite Ex; cbn [int_imm rbind]; [|discriminate].
  rewrite E. pose proof (s32_mod z) as M.
  rewrite pc_distance_s32.
  assert (Hhw : has (i_op i) ARM_HALFWORD = match k with BrBLX => true | _ => false end).
  { destruct k; repeat rewrite andb_true_iff in *; match goal with H : _ /\ _ |- _ => destruct H as ((? & X) & ?) end;
      [apply negb_true_iff in X|apply negb_true_iff in X|]; exact X. }
  rewrite Hhw.
  assert (Hl : (if match k with BrBLX => true | _ => false end then negb (Z.land (s32 z) 1 =? 0)
                else negb (Z.land (s32 z) 3 =? 0)) = negb (z mod branch_align k =? 0)).
  { destruct k; cbn [branch_align]; rewrite ?land_1, ?land_3; f_equal; apply eq_true_iff_eq; rewrite !Z.eqb_eq; lia. }
  rewrite Hl. destruct (Z.eqb_spec (z mod branch_align k) 0) as [E0|]; cbn [negb]; [|discriminate].
  pose proof (abs_int_cases (pc_distance addr z) ltac:(unfold pc_distance; apply s32_range)) as A.
  destruct (abs_int (pc_distance addr z)) as [a| |]; cbn [rbind]; try discriminate. destruct A as (-> & A).
  destruct (Z.geb_spec (Z.abs (pc_distance addr z)) 33554432); [discriminate|]. intros _. auto.
Qed.
Lemma word_branch i e addr pool q k : word_hyps i e addr (FBranch k) q -> word_claim i e addr pool (FBranch k) q.
Proof.
  intros H. open_hyps H. settled. pose proof (row_source _ _ Hin Hform) as Hb. cbn iota in Hb.
  unfold word_claim. rewrite emit_plain by (apply (row_no_pool _ _ Hin Hform); discriminate).
  destruct (imm_word_s32 _ _ Qimm) as (RQ & [(x & Ex & E)|(x & Ex & E)]).
  - pose proof (arm_branch i addr e x k Hin Hb) as B.
    assert (Wf' : arm_in_wf i) by (unfold arm_in_wf; auto 20).
    specialize (B Wf' Hus Hbl Hs Hal Ex).
    pose proof (branch_fits i addr e k) as F.
    rewrite Ex in Qimm. cbn [imm_word] in Qimm. injection Qimm as Qimm.
    destruct (arm_assemble i addr e) as [w| |]; cbn [rbind].
    + destruct (F w (q_imm q) Hin Hb) as (F1 & F2 & F3); [rewrite Ex; cbn [imm_word]; rewrite Qimm; reflexivity|exact Hus|reflexivity|].
      split; [exact (conj F1 (conj F2 F3))|]. eexists. split; [apply decode_of_branch; exact B|]. split; [reflexivity|].
      unfold of_branch, branch_cond. rewrite Qimm, Qc. destruct k; reflexivity.
    + intros (_ & A1 & A2). unfold pc_distance in A2. rewrite <- Qimm in *.
      assert (X : s32 (u32 x - addr - 8) = s32 (x - addr - 8)) by (apply s32_same; unfold u32; lia).
      rewrite X in A2. destruct B as [B|B]; [|lia]. apply B. clear - A1.
      unfold u32 in A1. destruct k; cbn [branch_align] in *; lia.
    + cbn [arm_undefined]. rewrite <- Qimm. rewrite <- B. unfold u32. lia.
  - assert (X : arm_assemble i addr e = RErr).
    { pose proof br_rows_ok as Hr. rewrite forallb_forall in Hr. specialize (Hr _ Hin).
      unfold br_row_ok in Hr. rewrite Hb in Hr. repeat rewrite andb_true_iff in Hr. decompose [and] Hr. clear Hr.
      repeat match goal with
      | H : (_ =? _) = true |- _ => apply Z.eqb_eq in H
      | H : negb _ = true |- _ => apply negb_true_iff in H
      end.
      unfold arm_assemble, arm_validate, validate_imm. rewrite Hus, Ex.
      repeat match goal with H : has _ _ = _ |- _ => rewrite H end. reflexivity. }
    rewrite X. cbn [rbind]. rewrite Ex. intros (F & _). discriminate.
Qed.

Lemma expand_encodable x : 0 <= x < 4096 -> arm_encodable (arm_expand_imm x).
Proof.
  intros H. replace x with (x / 256 * 256 + x mod 256) by lia.
  exists (x mod 256), (x / 256). split; [lia|]. split; [lia|]. apply arm_expand_imm_fields; lia.
Qed.
Lemma dp_imm_encodable w c opc s rn rd v : decode_dp_imm w = Some (mkDpImm c opc s rn rd v) -> arm_encodable v.
Proof.
  unfold decode_dp_imm. destruct (_ =? _); [|discriminate]. intros H.
  assert (E : arm_expand_imm (bits w 0 12) = v) by congruence. rewrite <- E. apply expand_encodable.
  unfold bits. change (2 ^ 12) with 4096. lia.
Qed.
Lemma word_dp_imm i e addr pool q opc sn sd : word_hyps i e addr (FDpImm opc sn sd) q -> word_claim i e addr pool (FDpImm opc sn sd) q.
Proof.
  intros H. open_hyps H. pose proof (row_source _ _ Hin Hform) as (Hb & Ho).
  specialize (Hus eq_refl). specialize (Hwb eq_refl). specialize (Hbl eq_refl). specialize (Qimm eq_refl). cbn [imm_len] in Hbl.
  unfold word_claim. rewrite emit_plain by (apply (row_no_pool _ _ Hin Hform); discriminate).
  assert (Wf' : arm_in_wf i) by (unfold arm_in_wf; auto 20).
  pose proof (arm_dp_immediate i addr e (q_imm q) opc sn sd Hin Hb Wf' Hus Hbl Qimm) as D.
  destruct (arm_assemble i addr e) as [w| |]; cbn [rbind]; [| |destruct D].
  - destruct D as (opc' & v & D & Dv & Ds). pose proof (dp_imm_encodable _ _ _ _ _ _ _ D) as En.
    split; [destruct Dv as [(_ & ->)|(_ & Dv)]; [left; exact En|right; exists opc', v; auto]|].
    eexists. split.
    + apply (decode_of_dp_imm addr w _ D). split; cbn [dp_cond dp_opc dp_s]; [lia|].
      intros Ho'. assert (Hw : dp_writes opc = false); [|rewrite Hw; apply orb_true_r].
      destruct Dv as [(-> & _)|(_ & Dv)]; [unfold dp_writes; lia|]. clear - Dv Ho Ho'.
      unfold dp_complement in Dv.
      assert (O : opc = 0 \/ opc = 2 \/ opc = 4 \/ opc = 10 \/ opc = 11 \/ opc = 13 \/ opc = 14 \/ opc = 15 \/
                  (opc = 1 \/ opc = 3 \/ opc = 5 \/ opc = 6 \/ opc = 7 \/ opc = 8 \/ opc = 9 \/ opc = 12)) by lia.
      repeat (destruct O as [O|O]); subst opc; try discriminate; try reflexivity; assert (opc' = opc') by reflexivity;
        apply (f_equal (fun o => match o with Some (a, _) => a | None => 0 end)) in Dv; lia.
    + split; [reflexivity|]. unfold of_dp_imm. cbn [dp_cond dp_opc dp_s dp_rn dp_rd dp_val].
      exists opc', v. rewrite Qc, Qs. split; [|exact Ds].
      f_equal; unfold sel_value, q_sel; [destruct sn|destruct sd]; congruence.
  - intros [F|(opc' & v & F & G)]; destruct D as (D1 & D2); [auto|]. exact (D2 _ _ F G).
Qed.

Lemma word_dp_reg i e addr pool q opc sn sd sm : word_hyps i e addr (FDpReg opc sn sd sm) q ->
  word_claim i e addr pool (FDpReg opc sn sd sm) q.
Proof.
  intros H. open_hyps H. pose proof (row_source _ _ Hin Hform) as (Hb & Ho).
  specialize (Hwb eq_refl). unfold word_claim. rewrite emit_plain by (apply (row_no_pool _ _ Hin Hform); discriminate).
  assert (Wf' : arm_in_wf i) by (unfold arm_in_wf; auto 20).
  assert (Fo : forall s, dp_fields_ok (i_c i) opc (s || negb (dp_writes opc))).
  { intros s. split; [lia|]. intros O. replace (dp_writes opc) with false by (unfold dp_writes; lia). apply orb_true_r. }
  assert (Es : q_sel sn q = sel_value sn i /\ q_sel sd q = sel_value sd i /\ q_msel sm q = msel_value sm i).
  { unfold sel_value, q_sel, q_msel, msel_value. destruct sn, sd, sm; auto. }
  destruct Es as (E1 & E2 & E3). cbn [arm_fits arm_means]. rewrite E1, E2, E3, Qc, Qs.
  unfold shift_of in Qsh. destruct (i_use_shift i) eqn:U.
  - destruct (i_shift_byreg i) eqn:B.
    + rewrite Qsh in *. cbn [shift_sane shift_fits] in *.
      destruct (arm_dp_rsr i addr e opc sn sd sm Hin Hb Wf' U B ltac:(lia)) as (w & -> & D). cbn [rbind].
      split; [exact Logic.I|]. eexists. split; [apply (decode_of_dp_rsr addr w _ D); apply Fo|].
      split; [reflexivity|]. eexists. split; [reflexivity|]. reflexivity.
    + destruct Qsh as (n & En & Eq). rewrite Eq in *. cbn [shift_sane shift_fits shift_means] in *.
      pose proof (arm_dp_shift i addr e n opc sn sd sm Hin Hb Wf' U B ltac:(lia) En (proj1 Hss) (proj2 Hss)) as D.
      destruct (arm_assemble i addr e) as [w| |]; cbn [rbind]; [| |destruct D].
      * destruct D as (sh & ws & D & Dw & Ds). split; [exists ws; exact Dw|].
        eexists. split; [apply (decode_of_dp_reg addr w _ D); apply Fo|].
        split; [reflexivity|]. eexists. split; [reflexivity|]. exists sh. split; [reflexivity|]. exists ws. auto.
      * intros (sh & F). congruence.
  - rewrite Qsh. cbn [shift_fits].
    destruct (arm_dp_plain i addr e opc sn sd sm Hin Hb Wf' U) as (w & -> & D). cbn [rbind].
    split; [exact Logic.I|]. eexists. split; [apply (decode_of_dp_reg addr w _ D); apply Fo|].
    split; [reflexivity|]. eexists. split; [reflexivity|]. exists (ShLSL 0). split; reflexivity.
Qed.

Lemma word_cop i e addr pool q k u inf : word_hyps i e addr (FCop k u inf) q -> word_claim i e addr pool (FCop k u inf) q.
Proof.
  intros H. open_hyps H. pose proof (row_source _ _ Hin Hform) as (Hb & Hu).
  specialize (Hs eq_refl). specialize (Hus eq_refl).
  unfold word_claim. rewrite emit_plain by (apply (row_no_pool _ _ Hin Hform); discriminate).
  assert (Wf' : arm_in_wf i) by (unfold arm_in_wf; auto 20).
  destruct Qcop as (Q1 & Q2). destruct Hsane as (I1 & I2 & P1 & P2 & Pm).
  assert (Q2' : if inf then e_cpinf e = Some (q_opc2 q) /\ is_int32 (q_opc2 q) else q_opc2 q = 0)
    by (destruct inf; auto).
  pose proof (arm_cop i addr e k u inf (q_opc1 q) (q_opc2 q) Hin Hb Wf' Hus Hs Q1 I1 Q2' P1 P2 Pm) as D.
  destruct (arm_assemble i addr e) as [w| |]; cbn [rbind]; [| |destruct D].
  - destruct D as (D1 & D2 & D). split; [split; [destruct k; cbn [cop_opc_max] in D1; lia|exact D2]|].
    eexists. split.
    + apply (decode_of_cop addr w _ D). intros C15. unfold decode_cop in D.
      destruct (Z.eqb_spec (bits w 24 4) 14) as [E|N]; [exact E|exfalso].
      destruct (Z.eqb_spec (bits w 20 8) 196) as [E|].
      * assert (X : MCRR (bits w 28 4) (bits w 4 4) (bits w 16 4) (bits w 12 4) (bits w 8 4) (bits w 0 4) =
                    cop_build k (if u then 15 else i_c i) (q_opc1 q) (q_opc2 q) (i_pn i) (i_cd i) (i_cn i) (i_cm i) (i_rd i) (i_rn i))
          by congruence.
        destruct k; cbn [cop_build] in X; try discriminate. injection X as X _ _ _ _ _. rewrite C15 in X.
        rewrite (Hu (or_introl eq_refl)) in X. lia.
      * destruct (Z.eqb_spec (bits w 20 8) 197) as [E|]; [|discriminate].
        assert (X : MRRC (bits w 28 4) (bits w 4 4) (bits w 16 4) (bits w 12 4) (bits w 8 4) (bits w 0 4) =
                    cop_build k (if u then 15 else i_c i) (q_opc1 q) (q_opc2 q) (i_pn i) (i_cd i) (i_cn i) (i_cm i) (i_rd i) (i_rn i))
          by congruence.
        destruct k; cbn [cop_build] in X; try discriminate. injection X as X _ _ _ _ _. rewrite C15 in X.
        rewrite (Hu (or_intror eq_refl)) in X. lia.
    + split; [reflexivity|]. rewrite Qc, Qcp, Qcrd, Qcrn, Qcrm, Qrd, Qrn. reflexivity.
  - intros (F1 & F2). lia.
Qed.

(** * All forms *)

Theorem arm_word i e addr pool f q : word_hyps i e addr f q -> word_claim i e addr pool f q.
Proof.
  destruct f as [l|k|opc sn sd|opc sn sd sm| | |imm| |acc two|sg acc| | | | | |l b u p|l| |p|k p| |l| | |b two| | |k u inf| |op two].
  - apply word_bx.
  - apply word_branch.
  - apply word_dp_imm.
  - apply word_dp_reg.
  - apply word_nop.
  - apply word_adr.
  - destruct imm; [apply word_msr_imm|apply word_msr].
  - apply word_mrs.
  - apply word_mul.
  - apply word_mull.
  - apply word_smla.
  - apply word_smlaw.
  - apply word_smulw.
  - apply word_smlal.
  - apply word_smul.
  - destruct p; [apply word_mem_base|apply word_mem_reg|apply word_mem_imm].
  - apply word_mem_abs.
  - apply word_literal.
  - destruct p; [apply word_pld_base|apply word_pld_reg|apply word_pld_imm].
  - destruct p; [apply word_half_base|apply word_half_reg|apply word_half_imm].
  - apply word_half_abs.
  - apply word_block.
  - apply word_push.
  - apply word_pop.
  - apply word_swp.
  - apply word_swi.
  - apply word_bkpt.
  - apply word_cop.
  - apply word_clz.
  - apply word_sat.
Qed.
