(** Proofs about the macros that compare, branch and rotate. *)

Require Import ZArith Lia Bool List String Ascii.
Require Import ZifyBool.
Require Import Verif.Ints Verif.IntsLemmas Verif.BitFields Verif.Res Verif.MipsTable Verif.MipsModel Verif.MipsSpec
  Verif.MipsProofs Verif.MipsWordProofs Verif.MipsCpu Verif.MipsDecodeProofs Verif.MipsMacroModel Verif.MipsExecProofs
  Verif.MipsMacroSpec Verif.MipsMacroProofs.
Import ListNotations.
Local Open Scope string_scope.
Local Open Scope list_scope.
Local Open Scope Z_scope.

Definition reversed (k : relation) : bool := match k with RGt | RLe => true | _ => false end.
Definition condition (k : relation) (signed : bool) : Z :=
  match k with
  | REq => MIPSM_EQ | RNe => MIPSM_NE
  | RLt | RGt => if signed then MIPSM_LT else MIPSM_LTU
  | RLe | RGe => if signed then MIPSM_GE else MIPSM_GEU
  end.
Ltac by_comparison N := cbn in N; repeat (destruct N as [N|N]; [injection N as <- <- <-|]); [..|destruct N].
Lemma set_find_imm x k sg p q r d a v : In (x, (k, sg)) comparisons ->
  register Gpr p = Some d -> register Gpr q = Some a -> parse_immediate r = Some v -> register Gpr r = None ->
  exists m ar, find_macro mipsMacros (set_name (x, (k, sg))) (commas [p; q; r]) = Some (m, ar) /\ k_gen m = GSet /\
    Z.land (k_flags m) MIPSM_CONDITIONMASK = condition k sg /\ has (k_flags m) MIPSM_IMM = true /\ has (k_flags m) MIPSM_REVCMP = reversed k /\
    a_rd ar = reg_text p /\ a_rs ar = reg_text q /\ a_I ar = Some v.
Proof.
  intros N D A I NR. by_comparison N; cbn [set_name fst append]; (eexists; eexists; split; [fit|repeat split]).
Qed.
Lemma set_find_reg x k sg p q r d a t : In (x, (k, sg)) comparisons -> In k [REq; RNe; RLe; RGe] ->
  register Gpr p = Some d -> register Gpr q = Some a -> register Gpr r = Some t ->
  exists m ar, find_macro mipsMacros (set_name (x, (k, sg))) (commas [p; q; r]) = Some (m, ar) /\ k_gen m = GSet /\
    Z.land (k_flags m) MIPSM_CONDITIONMASK = condition k sg /\ has (k_flags m) MIPSM_IMM = false /\ has (k_flags m) MIPSM_REVCMP = reversed k /\
    a_rd ar = reg_text p /\ a_rs ar = reg_text q /\ a_rt ar = reg_text r.
Proof.
  intros N K D A T. by_comparison N; cbn [set_name fst append];
    first [ exfalso; cbn in K; intuition discriminate | eexists; eexists; split; [fit|repeat split] ].
Qed.
Lemma set_plain x k sg p q r d a t : In (x, (k, sg)) comparisons -> In k [RLt; RGt] ->
  register Gpr p = Some d -> register Gpr q = Some a -> register Gpr r = Some t ->
  find_macro mipsMacros (set_name (x, (k, sg))) (commas [p; q; r]) = None.
Proof.
  intros N K D A T. by_comparison N; cbn [set_name fst append];
    first [ exfalso; cbn in K; intuition discriminate | fit ].
Qed.

(** One line of a set macro. *)
Definition less (sg : bool) (a b : Z) : bool := if sg then s32 a <? s32 b else a <? b.
Lemma slt_line f arch pc (sg : bool) p q r d a t ws c : coded f arch pc (ln (if sg then "slt" else "sltu") [p; q; r]) ws ->
  register Gpr p = Some d -> register Gpr q = Some a -> register Gpr r = Some t ->
  run ws c = Some (set c d (b2z (less sg (reg c a) (reg c t)))).
Proof.
  intros C D A T. apply coded_plain in C.
  - destruct C as (s & ig & x & AS & ->). destruct sg; cbn [fst snd ln] in AS.
    + exact (exec_alu "slt" 0x2A _ _ _ _ _ _ _ _ _ _ _ ltac:(apply in_imm; reflexivity) AS D A T).
    + exact (exec_alu "sltu" 0x2B _ _ _ _ _ _ _ _ _ _ _ ltac:(apply in_imm; reflexivity) AS D A T).
  - destruct sg.
    + exact (set_plain "lt" RLt true _ _ _ _ _ _ ltac:(cbn; auto 20) ltac:(cbn; auto) D A T).
    + exact (set_plain "ltu" RLt false _ _ _ _ _ _ ltac:(cbn; auto 20) ltac:(cbn; auto) D A T).
Qed.
Lemma slti_line f arch pc (sg : bool) p q d a z ws c : coded f arch pc (ln (if sg then "slti" else "sltiu") [p; q; im z]) ws ->
  register Gpr p = Some d -> register Gpr q = Some a -> -32768 <= z < 32768 ->
  run ws c = Some (set c d (b2z (less sg (reg c a) (u32 z)))).
Proof.
  intros C D A B. apply coded_plain in C.
  - destruct C as (s & ig & x & AS & ->). destruct sg; cbn [fst snd ln] in AS.
    + rewrite (exec_imm "slti" (10 * 2 ^ 26) _ _ _ _ _ _ _ _ _ _ _ ltac:(apply in_imm; reflexivity) AS D A (int_im z)).
      change (10 * 2 ^ 26 / 2 ^ 26) with 10. cbn [immop less]. rewrite (s16_id z B). do 4 f_equal.
      unfold u32, s32. cbv zeta. rewrite Z.mod_mod by lia. destruct (z mod 4294967296 <? 2147483648) eqn:E; Z.div_mod_to_equations; lia.
    + rewrite (exec_imm "sltiu" (11 * 2 ^ 26) _ _ _ _ _ _ _ _ _ _ _ ltac:(apply in_imm; reflexivity) AS D A (int_im z)).
      change (11 * 2 ^ 26 / 2 ^ 26) with 11. cbn [immop less]. rewrite (s16_id z B). reflexivity.
  - destruct sg; no_macro.
Qed.
Lemma xori_line f arch pc p q d a z ws c : coded f arch pc (ln "xori" [p; q; im z]) ws ->
  register Gpr p = Some d -> register Gpr q = Some a -> run ws c = Some (set c d (Z.lxor (reg c a) (z mod 65536))).
Proof.
  intros C D A. apply coded_plain in C; [|no_macro]. destruct C as (s & ig & x & AS & ->). cbn [fst snd ln] in AS.
  exact (exec_imm "xori" (14 * 2 ^ 26) _ _ _ _ _ _ _ _ _ _ _ ltac:(apply in_imm; reflexivity) AS D A (int_im z)).
Qed.
Lemma xor_line f arch pc p q r d a t ws c : coded f arch pc (ln "xor" [p; q; r]) ws ->
  register Gpr p = Some d -> register Gpr q = Some a -> register Gpr r = Some t -> run ws c = Some (set c d (Z.lxor (reg c a) (reg c t))).
Proof.
  intros C D A T. apply coded_plain in C; [|no_macro]. destruct C as (s & ig & x & AS & ->). cbn [fst snd ln] in AS.
  exact (exec_alu "xor" 0x26 _ _ _ _ _ _ _ _ _ _ _ ltac:(apply in_imm; reflexivity) AS D A T).
Qed.
Lemma li_line f arch pc p n z ws c : coded f arch pc (ln "li" [p; im z]) ws -> register Gpr p = Some n -> reg c 0 = 0 ->
  exists c', run ws c = Some c' /\ sets c n z c'.
Proof. intros C R Z0. exact (li_run _ _ _ "li" _ _ _ _ _ _ C (or_introl eq_refl) R (int_im z) Z0). Qed.

Lemma less_lt sg a b : 0 <= a < 4294967296 -> less sg a (u32 b) = compared RLt sg a b.
Proof.
  intros A. unfold less, compared, holds_of. destruct sg.
  - f_equal. unfold u32, s32. cbv zeta. rewrite Z.mod_mod by lia. reflexivity.
  - rewrite (u32_small a A). reflexivity.
Qed.
Lemma less_gt sg a b : 0 <= a < 4294967296 -> less sg (u32 b) a = compared RGt sg a b.
Proof.
  intros A. unfold less, compared, holds_of. destruct sg.
  - f_equal. unfold u32, s32. cbv zeta. rewrite Z.mod_mod by lia. reflexivity.
  - rewrite (u32_small a A). reflexivity.
Qed.
Lemma lt_ge sg a b : compared RGe sg a b = negb (compared RLt sg a b).
Proof. unfold compared, holds_of. destruct sg; lia. Qed.
Lemma gt_le sg a b : compared RLe sg a b = negb (compared RGt sg a b).
Proof. unfold compared, holds_of. destruct sg; lia. Qed.
Lemma xor_one b : Z.lxor (u32 (b2z b)) (1 mod 65536) = b2z (negb b).
Proof. destruct b; reflexivity. Qed.
(** The comparison after which a set macro may turn its result around. *)
Definition positive (k : relation) : relation := match k with RGe => RLt | RLe => RGt | _ => k end.
Lemma positive_of k sg a b : In k [RLt; RLe; RGt; RGe] ->
  compared k sg a b = xorb (match k with RLe | RGe => true | _ => false end) (compared (positive k) sg a b).
Proof. intros K. cbn in K. intuition subst; cbn [positive]; rewrite ?lt_ge, ?gt_le, ?xorb_true_l, ?xorb_false_l; reflexivity. Qed.
Lemma eq_xor a b : 0 <= a < 4294967296 -> 0 <= b < 4294967296 -> 0 <= Z.lxor a b < 4294967296 /\ (Z.lxor a b =? 0) = (a =? b).
Proof.
  intros A B. split.
  - split; [apply Z.lxor_nonneg; lia|]. change 4294967296 with (2 ^ 32). destruct (Z.eq_dec (Z.lxor a b) 0) as [->|NZ]; [lia|].
    assert (0 <= Z.lxor a b) by (apply Z.lxor_nonneg; lia). apply Z.log2_lt_pow2; [lia|].
    eapply Z.le_lt_trans; [apply Z.log2_lxor; lia|]. apply Z.max_lub_lt.
    + destruct (Z.eq_dec a 0) as [->|]; [reflexivity|apply Z.log2_lt_pow2; lia].
    + destruct (Z.eq_dec b 0) as [->|]; [reflexivity|apply Z.log2_lt_pow2; lia].
  - apply Bool.eq_iff_eq_true. rewrite !Z.eqb_eq. apply Z.lxor_eq_0_iff.
Qed.
Lemma compared_eq sg a b : compared REq sg a b = (u32 a =? u32 b).
Proof.
  unfold compared, holds_of. destruct sg; [|reflexivity]. unfold s32, u32. cbv zeta.
  pose proof (Z.mod_pos_bound a 4294967296 ltac:(lia)). pose proof (Z.mod_pos_bound b 4294967296 ltac:(lia)).
  destruct (a mod 4294967296 <? 2147483648) eqn:E1, (b mod 4294967296 <? 2147483648) eqn:E2; lia.
Qed.
Lemma compared_ne sg a b : compared RNe sg a b = negb (u32 a =? u32 b).
Proof. rewrite <- (compared_eq sg a b). unfold compared, holds_of. destruct sg; reflexivity. Qed.

(** The end of seq and sne. *)
Definition finish (k : relation) (d : piece) : list mline :=
  match k with REq => [ln "sltiu" [d; d; im 1]] | _ => [ln "sltu" [d; rg "r0"; d]] end.
Lemma finish_run f arch pc k p d ws c a b : all_coded f arch pc (finish k p) ws -> In k [REq; RNe] -> register Gpr p = Some d -> d <> 0 ->
  reg c 0 = 0 -> 0 <= a < 4294967296 -> reg c d = u32 (Z.lxor a (u32 b)) ->
  exists c', run ws c = Some c' /\ sets c d (b2z (compared k true a b)) c'.
Proof.
  intros AC K D D0 Z0 AB V. destruct (eq_xor a (u32 b) AB (u32_bounds b)) as [RG EQ]. rewrite (u32_small _ RG) in V.
  assert (E : all_coded f arch pc [ln (match k with REq => "sltiu" | _ => "sltu" end) (match k with REq => [p; p; im 1] | _ => [p; rg "r0"; p] end)] ws)
    by (cbn in K; intuition subst; exact AC).
  apply all_inv in E. destruct E as (w1 & w2 & -> & C & E). ended E.
  cbn in K. destruct K as [<-|[<-|[]]].
  - rewrite (slti_line _ _ _ false _ _ _ _ _ _ _ C D D ltac:(lia)). eexists. split; [reflexivity|].
    rewrite compared_eq, (u32_small a AB), <- EQ. rewrite V.
    replace (less false (Z.lxor a (u32 b)) (u32 1)) with (Z.lxor a (u32 b) =? 0) by (cbn [less]; change (u32 1) with 1; lia). apply sets_set.
  - rewrite (slt_line _ _ _ false _ _ _ _ _ _ _ _ C D reg_r0 D). eexists. split; [reflexivity|].
    rewrite compared_ne, (u32_small a AB), <- EQ. rewrite V, Z0.
    replace (less false 0 (Z.lxor a (u32 b))) with (negb (Z.lxor a (u32 b) =? 0)) by (cbn [less]; lia). apply sets_set.
Qed.

(** ** seq, sne, slt, sle, sgt, sge *)

Definition sgt_names : list (string * Z) := [("sgt", 0x2A); ("sgtu", 0x2B)].
Lemma sgt_unique : forallb (fun x => unique (fst x) [KR; KS ","; KR; KS ","; KR] (args [d_; t_; s_]) (snd x)) sgt_names = true.
Proof. vm_compute. reflexivity. Qed.
Lemma exec_sgt name fn s ignore pc p q r a b d out c : In (name, fn) sgt_names ->
  mips_assemble s ignore pc name (commas [p; q; r]) = ROk out ->
  register Gpr p = Some d -> register Gpr q = Some a -> register Gpr r = Some b ->
  run (x_words out) c = Some (set c d (alu fn (reg c b) (reg c a))).
Proof.
  intros N A D RA RB. the_word A N (kinds_r3 _ _ _ _ _ _ D RA RB) (read_r3 name pc RD RT RS _ _ _ _ _ _ D RA RB) sgt_unique.
  fixed FX 26 6. fixed FX 0 6. fixed FX 6 5. by_name N; reflexivity.
Qed.
Lemma sgt_line f arch pc (sg : bool) p q r d a t ws c : coded f arch pc (ln (if sg then "sgt" else "sgtu") [p; q; r]) ws ->
  register Gpr p = Some d -> register Gpr q = Some a -> register Gpr r = Some t ->
  run ws c = Some (set c d (b2z (less sg (reg c t) (reg c a)))).
Proof.
  intros C D A T. apply coded_plain in C.
  - destruct C as (s & ig & x & AS & ->). destruct sg; cbn [fst snd ln] in AS.
    + exact (exec_sgt "sgt" 0x2A _ _ _ _ _ _ _ _ _ _ _ ltac:(apply in_imm; reflexivity) AS D A T).
    + exact (exec_sgt "sgtu" 0x2B _ _ _ _ _ _ _ _ _ _ _ ltac:(apply in_imm; reflexivity) AS D A T).
  - destruct sg.
    + exact (set_plain "gt" RGt true _ _ _ _ _ _ ltac:(cbn; auto 20) ltac:(cbn; auto) D A T).
    + exact (set_plain "gtu" RGt false _ _ _ _ _ _ ltac:(cbn; auto 20) ltac:(cbn; auto) D A T).
Qed.

(** The lines of a set macro. *)
Definition slt_of (sg : bool) : string := if sg then "slt" else "sltu".
Definition slti_of (sg : bool) : string := if sg then "slti" else "sltiu".
Definition turn (k : relation) (p : piece) : list mline := match k with RLe | RGe => [ln "xori" [p; p; im 1]] | _ => [] end.
Definition set_imm_lines (k : relation) (sg : bool) (p q : piece) (z : Z) : list mline :=
  match k with
  | REq | RNe => (if (0 <=? z) && (z <? 65536) then [ln "xori" [p; q; im z]] else [ln "li" [p; im z]; ln "xor" [p; q; p]]) ++ finish k p
  | RLt | RGe => (if (z <? - 0x8000) || (0x8000 <=? z) then [ln "li" [p; im z]; ln (slt_of sg) [p; q; p]] else [ln (slti_of sg) [p; q; im z]]) ++ turn k p
  | RGt | RLe => (if z =? 0 then [ln (slt_of sg) [p; rg "r0"; q]] else [ln "li" [p; im z]; ln (slt_of sg) [p; p; q]]) ++ turn k p
  end.
Definition set_reg_lines (k : relation) (sg : bool) (p q r : piece) : list mline :=
  match k with
  | REq | RNe => ln "xor" [p; q; r] :: finish k p
  | RLe => [ln (slt_of sg) [p; r; q]; ln "xori" [p; p; im 1]]
  | _ => [ln (slt_of sg) [p; q; r]; ln "xori" [p; p; im 1]]
  end.
Lemma set_imm_coded f arch pc x k sg p q r d a z ws : In (x, (k, sg)) comparisons -> coded f arch pc (ln (set_name (x, (k, sg))) [p; q; r]) ws ->
  register Gpr p = Some d -> register Gpr q = Some a -> integer r = Some z ->
  exists f' p' q', register Gpr p' = Some d /\ register Gpr q' = Some a /\ all_coded f' arch pc (set_imm_lines k sg p' q' z) ws.
Proof.
  intros N C D A I. destruct (integer_immediate _ _ I) as [h I'].
  destruct (set_find_imm _ _ _ _ _ _ _ _ _ N D A I' (integer_not_register _ _ I)) as (m & ar & F & G & CM & IM & RV & RD & RS & AI).
  destruct (coded_macro _ _ _ _ _ _ _ C F) as (f' & ls & -> & GE & AC).
  exists f', (reg_text p), (reg_text q). rewrite !register_text. split; [exact D|]. split; [exact A|].
  unfold generate in GE. rewrite G in GE. unfold generate_set in GE. rewrite CM, IM, RV, RD, RS, AI in GE.
  cbn [with_int] in GE. rewrite case_small in GE.
  assert (E : ls = set_imm_lines k sg (reg_text p) (reg_text q) z).
  { clear - N GE. by_comparison N; cbn [condition reversed set_imm_lines] in *;
    apply ROk_inj in GE; rewrite <- GE; try reflexivity;
    destruct ((0 <=? z) && (z <? 65536)); reflexivity. }
  subst ls. exact AC.
Qed.
Lemma set_reg_coded f arch pc x k sg p q r d a t ws : In (x, (k, sg)) comparisons -> In k [REq; RNe; RLe; RGe] ->
  coded f arch pc (ln (set_name (x, (k, sg))) [p; q; r]) ws ->
  register Gpr p = Some d -> register Gpr q = Some a -> register Gpr r = Some t ->
  exists f' p' q' r', register Gpr p' = Some d /\ register Gpr q' = Some a /\ register Gpr r' = Some t /\
    all_coded f' arch pc (set_reg_lines k sg p' q' r') ws.
Proof.
  intros N K C D A T.
  destruct (set_find_reg _ _ _ _ _ _ _ _ _ N K D A T) as (m & ar & F & G & CM & IM & RV & RD & RS & AT).
  destruct (coded_macro _ _ _ _ _ _ _ C F) as (f' & ls & -> & GE & AC).
  exists f', (reg_text p), (reg_text q), (reg_text r). rewrite !register_text. split; [exact D|]. split; [exact A|]. split; [exact T|].
  unfold generate in GE. rewrite G in GE. unfold generate_set in GE. rewrite CM, IM, RV, RD, RS, AT in GE.
  assert (E : ls = set_reg_lines k sg (reg_text p) (reg_text q) (reg_text r)).
  { clear - N GE K. by_comparison N; try (exfalso; cbn in K; intuition discriminate); cbn [condition reversed set_reg_lines] in *;
    apply ROk_inj in GE; rewrite <- GE; reflexivity. }
  subst ls. exact AC.
Qed.

Definition turns (k : relation) : bool := match k with RLe | RGe => true | _ => false end.
Lemma turn_run f arch pc k p d ws c v : all_coded f arch pc (turn k p) ws -> register Gpr p = Some d -> d <> 0 -> reg c d = u32 (b2z v) ->
  exists c', run ws c = Some c' /\ sets c d (b2z (xorb (turns k) v)) c'.
Proof.
  intros AC D D0 V. destruct (turns k) eqn:TK.
  - assert (E : turn k p = [ln "xori" [p; p; im 1]]) by (destruct k; try discriminate; reflexivity). rewrite E in AC.
    apply all_inv in AC. destruct AC as (w1 & w2 & -> & C & AC). ended AC.
    rewrite (xori_line _ _ _ _ _ _ _ _ _ _ C D D). rewrite V, xor_one. eexists. split; [reflexivity|]. rewrite xorb_true_l. apply sets_set.
  - assert (E : turn k p = []) by (destruct k; try discriminate; reflexivity). rewrite E in AC. ended AC.
    exists c. split; [reflexivity|]. rewrite xorb_false_l. split; [|reflexivity]. intros r. destruct (Z.eqb_spec r d) as [->|]; [|reflexivity].
    destruct (Z.eqb_spec d 0); [contradiction|exact V].
Qed.
Lemma run_sets ws1 ws2 c n v c1 v' : run ws1 c = Some c1 -> sets c n v c1 -> (exists c2, run ws2 c1 = Some c2 /\ sets c1 n v' c2) ->
  exists c2, run (ws1 ++ ws2) c = Some c2 /\ sets c n v' c2.
Proof. intros R S1 (c2 & R2 & S2). exists c2. split; [rewrite run_app, R; exact R2|exact (sets_twice _ _ _ _ _ _ S1 S2)]. Qed.
Lemma all_app f arch ls1 ls2 : forall pc ws, all_coded f arch pc (ls1 ++ ls2) ws ->
  exists ws1 ws2, ws = ws1 ++ ws2 /\ all_coded f arch pc ls1 ws1 /\ all_coded f arch (pc + 4 * Z.of_nat (List.length ws1)) ls2 ws2.
Proof.
  induction ls1 as [|l ls1 IH]; intros pc ws H; cbn [app] in H.
  - exists [], ws. cbn [List.length app]. rewrite Z.add_0_r. split; [reflexivity|]. split; [constructor|exact H].
  - apply all_inv in H. destruct H as (w1 & w2 & -> & C & H). destruct (IH _ _ H) as (x1 & x2 & -> & H1 & H2).
    exists (w1 ++ x1), x2. rewrite app_assoc, app_length, Nat2Z.inj_add. split; [reflexivity|]. split; [econstructor; eassumption|].
    replace (pc + 4 * (Z.of_nat (Datatypes.length w1) + Z.of_nat (Datatypes.length x1))) with
      (pc + 4 * Z.of_nat (Datatypes.length w1) + 4 * Z.of_nat (Datatypes.length x1)) by lia. exact H2.
Qed.

Lemma sane_reg c r : sane c -> 0 <= reg c r < 4294967296.
Proof. intros (_ & H & _). apply H. Qed.
Lemma set_imm_run f arch pc x k sg p q d a z ws c : In (x, (k, sg)) comparisons -> all_coded f arch pc (set_imm_lines k sg p q z) ws ->
  register Gpr p = Some d -> register Gpr q = Some a -> sane c -> d <> 0 -> d <> a \/ in_place k z ->
  exists c', run ws c = Some c' /\ sets c d (b2z (compared k sg (reg c a) z)) c'.
Proof.
  intros N AC D A SC D0 DA. pose proof (proj1 SC) as Z0. pose proof (sane_reg c a SC) as RA.
  assert (SG : In k [REq; RNe] -> sg = true) by (clear - N; intros K; by_comparison N; cbn in K; intuition discriminate).
  assert (LI : forall f pc ls ws, all_coded f arch pc (ln "li" [p; im z] :: ls) ws ->
     exists pc' w1 w2 c1, ws = w1 ++ w2 /\ all_coded f arch pc' ls w2 /\ run w1 c = Some c1 /\ sets c d z c1 /\
       reg c1 0 = 0 /\ reg c1 d = u32 z /\ (d <> a -> reg c1 a = reg c a)).
  { clear - D D0 Z0. intros f pc ls ws H. apply all_inv in H. destruct H as (w1 & w2 & -> & C & H).
    destruct (li_line _ _ _ _ _ _ _ _ C D Z0) as (c1 & R & S1). exists (pc + 4 * Z.of_nat (Datatypes.length w1)), w1, w2, c1.
    split; [reflexivity|]. split; [exact H|]. split; [exact R|]. split; [exact S1|]. split; [rewrite (sets_zero _ _ _ _ S1); exact Z0|].
    split; [exact (sets_same _ _ _ _ S1 D0)|]. intros NE. apply (sets_other _ _ _ _ a S1). congruence. }
  assert (EN : In k [REq; RNe] -> exists c', run ws c = Some c' /\ sets c d (b2z (compared k sg (reg c a) z)) c').
  { intros K. rewrite (SG K). 
    assert (E : set_imm_lines k sg p q z = (if (0 <=? z) && (z <? 65536) then [ln "xori" [p; q; im z]] else [ln "li" [p; im z]; ln "xor" [p; q; p]]) ++ finish k p)
      by (cbn in K; intuition subst; reflexivity).
    rewrite E in AC. destruct ((0 <=? z) && (z <? 65536)) eqn:SM; cbn [app] in AC.
    - apply all_inv in AC. destruct AC as (w1 & w2 & -> & C & AC). eapply run_sets; [exact (xori_line _ _ _ _ _ _ _ _ _ _ C D A)|apply sets_set|].
      apply (finish_run _ _ _ _ _ _ _ _ _ _ AC K D D0); [rewrite (sets_zero _ _ _ _ (sets_set _ _ _)); exact Z0|exact RA|].
      rewrite (sets_same _ _ _ _ (sets_set _ _ _) D0). f_equal. f_equal. rewrite u32_small by lia. apply Z.mod_small. lia.
    - destruct (LI _ _ _ _ AC) as (pc' & w1 & w2 & c1 & -> & AC' & R & S1 & Z1 & D1 & A1).
      assert (d <> a) as NE by (destruct DA as [NE|IP]; [exact NE|cbn in K; intuition subst; cbn [in_place] in IP; lia]).
      eapply run_sets; [exact R|exact S1|]. apply all_inv in AC'. destruct AC' as (w3 & w4 & -> & C & AC').
      eapply run_sets; [exact (xor_line _ _ _ _ _ _ _ _ _ _ _ C D A D)|apply sets_set|].
      apply (finish_run _ _ _ _ _ _ _ _ _ _ AC' K D D0); [rewrite (sets_zero _ _ _ _ (sets_set _ _ _)); exact Z1|exact RA|].
      rewrite (sets_same _ _ _ _ (sets_set _ _ _) D0). rewrite D1, (A1 NE). reflexivity. }
  assert (LT : In k [RLt; RGe] -> exists c', run ws c = Some c' /\ sets c d (b2z (compared k sg (reg c a) z)) c').
  { intros K. rewrite positive_of by (cbn in K |- *; intuition). 
    assert (E : positive k = RLt) by (cbn in K; intuition subst; reflexivity). rewrite E. fold (turns k).
    assert (E' : set_imm_lines k sg p q z = (if (z <? - 0x8000) || (0x8000 <=? z) then [ln "li" [p; im z]; ln (slt_of sg) [p; q; p]] else [ln (slti_of sg) [p; q; im z]]) ++ turn k p)
      by (cbn in K; intuition subst; reflexivity).
    rewrite E' in AC. destruct ((z <? - 0x8000) || (0x8000 <=? z)) eqn:SM; cbn [app] in AC.
    - destruct (LI _ _ _ _ AC) as (pc' & w1 & w2 & c1 & -> & AC' & R & S1 & Z1 & D1 & A1).
      assert (d <> a) as NE by (destruct DA as [NE|IP]; [exact NE|cbn in K; intuition subst; cbn [in_place] in IP; lia]).
      eapply run_sets; [exact R|exact S1|]. apply all_inv in AC'. destruct AC' as (w3 & w4 & -> & C & AC').
      eapply run_sets; [exact (slt_line _ _ _ _ _ _ _ _ _ _ _ _ C D A D)|apply sets_set|].
      apply (turn_run _ _ _ _ _ _ _ _ _ AC' D D0). rewrite (sets_same _ _ _ _ (sets_set _ _ _) D0).
      rewrite D1, (A1 NE), less_lt by exact RA. reflexivity.
    - apply all_inv in AC. destruct AC as (w1 & w2 & -> & C & AC).
      eapply run_sets; [exact (slti_line _ _ _ _ _ _ _ _ _ _ _ C D A ltac:(lia))|apply sets_set|].
      apply (turn_run _ _ _ _ _ _ _ _ _ AC D D0). rewrite (sets_same _ _ _ _ (sets_set _ _ _) D0). rewrite less_lt by exact RA. reflexivity. }
  assert (GT : In k [RGt; RLe] -> exists c', run ws c = Some c' /\ sets c d (b2z (compared k sg (reg c a) z)) c').
  { intros K. rewrite positive_of by (cbn in K |- *; intuition). 
    assert (E : positive k = RGt) by (cbn in K; intuition subst; reflexivity). rewrite E. fold (turns k).
    assert (E' : set_imm_lines k sg p q z = (if z =? 0 then [ln (slt_of sg) [p; rg "r0"; q]] else [ln "li" [p; im z]; ln (slt_of sg) [p; p; q]]) ++ turn k p)
      by (cbn in K; intuition subst; reflexivity).
    rewrite E' in AC. destruct (z =? 0) eqn:SM; cbn [app] in AC.
    - apply all_inv in AC. destruct AC as (w1 & w2 & -> & C & AC). apply Z.eqb_eq in SM. subst z.
      eapply run_sets; [exact (slt_line _ _ _ _ _ _ _ _ _ _ _ _ C D reg_r0 A)|apply sets_set|].
      apply (turn_run _ _ _ _ _ _ _ _ _ AC D D0). rewrite (sets_same _ _ _ _ (sets_set _ _ _) D0). rewrite Z0.
      rewrite <- (less_gt sg (reg c a) 0 RA). reflexivity.
    - destruct (LI _ _ _ _ AC) as (pc' & w1 & w2 & c1 & -> & AC' & R & S1 & Z1 & D1 & A1).
      assert (d <> a) as NE by (destruct DA as [NE|IP]; [exact NE|cbn in K; intuition subst; cbn [in_place] in IP; lia]).
      eapply run_sets; [exact R|exact S1|]. apply all_inv in AC'. destruct AC' as (w3 & w4 & -> & C & AC').
      eapply run_sets; [exact (slt_line _ _ _ _ _ _ _ _ _ _ _ _ C D D A)|apply sets_set|].
      apply (turn_run _ _ _ _ _ _ _ _ _ AC' D D0). rewrite (sets_same _ _ _ _ (sets_set _ _ _) D0).
      rewrite D1, (A1 NE), less_gt by exact RA. reflexivity. }
  destruct k; (apply EN; cbn; tauto) || (apply LT; cbn; tauto) || (apply GT; cbn; tauto).
Qed.
Lemma set_reg_run f arch pc x k sg p q r d a t ws c : In (x, (k, sg)) comparisons -> In k [REq; RNe; RLe; RGe] ->
  all_coded f arch pc (set_reg_lines k sg p q r) ws ->
  register Gpr p = Some d -> register Gpr q = Some a -> register Gpr r = Some t -> sane c -> d <> 0 ->
  exists c', run ws c = Some c' /\ sets c d (b2z (compared k sg (reg c a) (reg c t))) c'.
Proof.
  intros N K AC D A T SC D0. pose proof (proj1 SC) as Z0. pose proof (sane_reg c a SC) as RA. pose proof (sane_reg c t SC) as RT.
  assert (SG : In k [REq; RNe] -> sg = true) by (clear - N; intros K; by_comparison N; cbn in K; intuition discriminate).
  assert (EN : In k [REq; RNe] -> exists c', run ws c = Some c' /\ sets c d (b2z (compared k sg (reg c a) (reg c t))) c').
  { intros K'. rewrite (SG K'). assert (E : set_reg_lines k sg p q r = ln "xor" [p; q; r] :: finish k p) by (cbn in K'; intuition subst; reflexivity).
    rewrite E in AC. apply all_inv in AC. destruct AC as (w1 & w2 & -> & C & AC).
    eapply run_sets; [exact (xor_line _ _ _ _ _ _ _ _ _ _ _ C D A T)|apply sets_set|].
    apply (finish_run _ _ _ _ _ _ _ _ _ _ AC K' D D0); [rewrite (sets_zero _ _ _ _ (sets_set _ _ _)); exact Z0|exact RA|].
    rewrite (sets_same _ _ _ _ (sets_set _ _ _) D0). rewrite (u32_small (reg c t) RT). reflexivity. }
  destruct k; try (apply EN; cbn; tauto); try (exfalso; cbn in K; intuition discriminate); cbn [set_reg_lines] in AC;
    apply all_inv in AC; destruct AC as (w1 & w2 & -> & C & AC).
  - eapply run_sets; [exact (slt_line _ _ _ _ _ _ _ _ _ _ _ _ C D T A)|apply sets_set|]. rewrite gt_le.
    apply (turn_run _ _ _ RLe _ _ _ _ _ AC D D0). rewrite (sets_same _ _ _ _ (sets_set _ _ _) D0).
    rewrite <- (u32_small (reg c t) RT) at 1. rewrite less_gt by exact RA. reflexivity.
  - eapply run_sets; [exact (slt_line _ _ _ _ _ _ _ _ _ _ _ _ C D A T)|apply sets_set|]. rewrite lt_ge.
    apply (turn_run _ _ _ RGe _ _ _ _ _ AC D D0). rewrite (sets_same _ _ _ _ (sets_set _ _ _) D0).
    rewrite <- (u32_small (reg c t) RT) at 1. rewrite less_lt by exact RA. reflexivity.
Qed.
Lemma set_run f arch pc x k sg p q r d a v ws c : In (x, (k, sg)) comparisons -> coded f arch pc (ln (set_name (x, (k, sg))) [p; q; r]) ws ->
  register Gpr p = Some d -> register Gpr q = Some a -> operand c r = Some v -> sane c -> d <> 0 ->
  (forall z, integer r = Some z -> d <> a \/ in_place k z) ->
  exists c', run ws c = Some c' /\ sets c d (b2z (compared k sg (reg c a) v)) c'.
Proof.
  intros N C D A V SC D0 DA. pose proof (sane_reg c a SC) as RA. unfold operand in V. destruct (register Gpr r) as [t|] eqn:T.
  - injection V as <-. pose proof (sane_reg c t SC) as RT. destruct k.
    3: { eexists. split.
         - refine (slt_line _ _ _ sg _ _ _ _ _ _ _ _ _ D A T). cbn in N. destruct sg; repeat (destruct N as [N|N]; [try discriminate N; injection N as <-; exact C|]); destruct N.
         - rewrite <- (less_lt sg _ _ RA), (u32_small (reg c t) RT). apply sets_set. }
    4: { eexists. split.
         - refine (sgt_line _ _ _ sg _ _ _ _ _ _ _ _ _ D A T). cbn in N. destruct sg; repeat (destruct N as [N|N]; [try discriminate N; injection N as <-; exact C|]); destruct N.
         - rewrite <- (less_gt sg _ _ RA), (u32_small (reg c t) RT). apply sets_set. }
    all: match type of N with In (_, (?k, _)) _ => assert (K : In k [REq; RNe; RLe; RGe]) by (cbn; tauto) end.
    all: destruct (set_reg_coded _ _ _ _ _ _ _ _ _ _ _ _ _ N K C D A T) as (f' & p' & q' & r' & D' & A' & T' & AC).
    all: exact (set_reg_run _ _ _ _ _ _ _ _ _ _ _ _ _ _ N K AC D' A' T' SC D0).
  - destruct (set_imm_coded _ _ _ _ _ _ _ _ _ _ _ _ _ N C D A V) as (f' & p' & q' & D' & A' & AC).
    exact (set_imm_run _ _ _ _ _ _ _ _ _ _ _ _ _ N AC D' A' SC D0 (DA _ V)).
Qed.

(** ** Branches *)

Lemma branch_find_imm x k sg likely p q t a v u : In (x, (k, sg)) comparisons ->
  register Gpr p = Some a -> parse_immediate q = Some v -> register Gpr q = None -> parse_immediate t = Some u ->
  exists m ar, find_macro mipsMacros (branch_name likely (x, (k, sg))) (commas [p; q; t]) = Some (m, ar) /\ k_gen m = GBranch /\
    Z.land (k_flags m) MIPSM_CONDITIONMASK = condition k sg /\ has (k_flags m) MIPSM_IMM = true /\ has (k_flags m) MIPSM_REVCMP = reversed k /\
    has (k_flags m) MIPSM_LIKELY = likely /\ a_rs ar = reg_text p /\ a_i ar = Some v /\ a_I ar = Some u.
Proof.
  intros N A I NR T. by_comparison N; destruct likely; cbn [branch_name fst append]; (eexists; eexists; split; [fit|repeat split]).
Qed.
Lemma branch_find_reg x k sg likely p q t a b u : In (x, (k, sg)) comparisons -> In k [RLt; RGt; RLe; RGe] ->
  register Gpr p = Some a -> register Gpr q = Some b -> parse_immediate t = Some u ->
  exists m ar, find_macro mipsMacros (branch_name likely (x, (k, sg))) (commas [p; q; t]) = Some (m, ar) /\ k_gen m = GBranch /\
    Z.land (k_flags m) MIPSM_CONDITIONMASK = condition k sg /\ has (k_flags m) MIPSM_IMM = false /\ has (k_flags m) MIPSM_REVCMP = reversed k /\
    has (k_flags m) MIPSM_LIKELY = likely /\ a_rs ar = reg_text p /\ a_rt ar = reg_text q /\ a_I ar = Some u.
Proof.
  intros N K A B T. by_comparison N; try (exfalso; cbn in K; intuition discriminate);
    destruct likely; cbn [branch_name fst append]; (eexists; eexists; split; [fit|repeat split]).
Qed.
Lemma branch_plain x k sg likely p q t a b : In (x, (k, sg)) comparisons -> In k [REq; RNe] ->
  register Gpr p = Some a -> register Gpr q = Some b ->
  find_macro mipsMacros (branch_name likely (x, (k, sg))) (commas [p; q; t]) = None.
Proof.
  intros N K A B. by_comparison N; try (exfalso; cbn in K; intuition discriminate);
    destruct likely; cbn [branch_name fst append]; fit.
Qed.

Lemma branches_app ws1 ws2 pc c n v c1 taken likely z : run ws1 c = Some c1 -> sets c n v c1 -> n = 1 ->
  branches ws2 (pc + 4 * Z.of_nat (List.length ws1)) c1 taken likely z -> branches (ws1 ++ ws2) pc c taken likely z.
Proof.
  intros R S1 -> (pre & w & c' & -> & R2 & B & O & M & T). exists (ws1 ++ pre), w, c'. rewrite app_assoc. split; [reflexivity|].
  split; [rewrite run_app, R; exact R2|]. split; [exact B|]. split; [intros r NE; rewrite (O r NE); exact (sets_other _ _ _ _ _ S1 NE)|].
  split; [rewrite M; exact (sets_ram _ _ _ _ S1)|].
  rewrite app_length, Nat2Z.inj_add, Z.mul_add_distr_l, Z.add_assoc. intros L. apply T.
  destruct pre as [|x pre]; [cbn; lia|]. destruct (exists_last (l := x :: pre) ltac:(discriminate)) as (l & y & E). rewrite E in L |- *.
  rewrite app_assoc, last_last in L. rewrite last_last. exact L.
Qed.
Lemma branches_word out w pc c taken likely z : one_word out w -> branch_if w c = Some (taken, likely) ->
  (x_words out = [w] -> z mod 4 = 0 -> s32 (z - pc - 4) <> 0x20000 -> branch_target pc w = Some (u32 z)) ->
  branches (x_words out) pc c taken likely z.
Proof.
  intros W B T. destruct W as [W|W]; rewrite W.
  - exists [], w, c. cbn [app run List.length last]. rewrite Z.add_0_r. split; [reflexivity|]. split; [reflexivity|]. split; [exact B|].
    split; [reflexivity|]. split; [reflexivity|]. intros _. exact (T W).
  - exists [0], w, c. cbn [app]. split; [reflexivity|]. split; [reflexivity|]. split; [exact B|].
    split; [reflexivity|]. split; [reflexivity|]. intros L. exfalso. apply L. reflexivity.
Qed.
Definition br_of (ne likely : bool) : string := if likely then (if ne then "bnel" else "beql") else (if ne then "bne" else "beq").
Definition brz_of (ne likely : bool) : string := if likely then (if ne then "bnezl" else "beqzl") else (if ne then "bnez" else "beqz").
Lemma br_line f arch pc ne likely p q t a b z ws c : coded f arch pc (ln (br_of ne likely) [p; q; t]) ws ->
  register Gpr p = Some a -> register Gpr q = Some b -> integer t = Some z ->
  branches ws pc c (xorb ne (reg c a =? reg c b)) likely z.
Proof.
  intros C A B T. apply coded_plain in C; [|destruct ne, likely; fit]. destruct C as (s & ig & x & AS & ->). cbn [fst snd ln] in AS.
  destruct (line_br (br_of ne likely) (4 + b2z ne + (if likely then 16 else 0)) _ _ _ _ _ _ _ _ _ c ltac:(destruct ne, likely; apply in_imm; reflexivity) AS A B)
    as (w & W & BI).
  apply (branches_word _ _ _ _ _ _ _ W).
  - rewrite BI. destruct ne, likely, (_ =? _); reflexivity.
  - intros W' AL NE. eapply branch_exact; [exact AS|destruct ne, likely; reflexivity|exact W'|exact T|exact AL|exact NE].
Qed.
Lemma brz_line f arch pc ne likely p t a z ws c : coded f arch pc (ln (brz_of ne likely) [p; t]) ws ->
  register Gpr p = Some a -> integer t = Some z -> branches ws pc c (xorb ne (reg c a =? reg c 0)) likely z.
Proof.
  intros C A T. apply coded_plain in C; [|destruct ne, likely; no_macro]. destruct C as (s & ig & x & AS & ->). cbn [fst snd ln] in AS.
  destruct (line_brz (brz_of ne likely) (4 + b2z ne + (if likely then 16 else 0)) _ _ _ _ _ _ _ c ltac:(destruct ne, likely; apply in_imm; reflexivity) AS A)
    as (w & W & BI).
  apply (branches_word _ _ _ _ _ _ _ W).
  - rewrite BI. destruct ne, likely, (_ =? _); reflexivity.
  - intros W' AL NE. eapply branch_exact; [exact AS|destruct ne, likely; reflexivity|exact W'|exact T|exact AL|exact NE].
Qed.

(** The lines of a branch macro. *)
Definition negative (k : relation) : bool := match k with RNe | RLt | RGt => true | _ => false end.
Definition branch_imm_lines (k : relation) (sg likely : bool) (p : piece) (y : Z) (t : piece) : list mline :=
  match k with
  | REq | RNe => if y =? 0 then [ln (br_of (negative k) likely) [p; rg "r0"; t]]
                 else [ln "li" [rg "r1"; im y]; ln (br_of (negative k) likely) [p; rg "r1"; t]]
  | RLt | RGe => (if (y <? - 0x8000) || (0x8000 <=? y) then [ln "li" [rg "r1"; im y]; ln (slt_of sg) [rg "r1"; p; rg "r1"]]
                  else [ln (slti_of sg) [rg "r1"; p; im y]]) ++ [ln (brz_of (negative k) likely) [rg "r1"; t]]
  | RGt | RLe => (if y =? 0 then [ln (slt_of sg) [rg "r1"; rg "r0"; p]]
                  else [ln "li" [rg "r1"; im y]; ln (slt_of sg) [rg "r1"; rg "r1"; p]]) ++ [ln (brz_of (negative k) likely) [rg "r1"; t]]
  end.
Definition branch_reg_lines (k : relation) (sg likely : bool) (p q t : piece) : list mline :=
  [match k with RGt | RLe => ln (slt_of sg) [rg "r1"; q; p] | _ => ln (slt_of sg) [rg "r1"; p; q] end;
   ln (brz_of (negative k) likely) [rg "r1"; t]].
Lemma branch_imm_coded f arch pc x k sg likely p q t a y z ws : In (x, (k, sg)) comparisons ->
  coded f arch pc (ln (branch_name likely (x, (k, sg))) [p; q; t]) ws ->
  register Gpr p = Some a -> integer q = Some y -> integer t = Some z ->
  exists f' p' t', register Gpr p' = Some a /\ integer t' = Some z /\ all_coded f' arch pc (branch_imm_lines k sg likely p' y t') ws.
Proof.
  intros N C A I T. destruct (integer_immediate _ _ I) as [h I']. destruct (integer_immediate _ _ T) as [h' T'].
  destruct (branch_find_imm _ _ _ likely _ _ _ _ _ _ N A I' (integer_not_register _ _ I) T') as (m & ar & F & G & CM & IM & RV & LK & RS & AI & AT).
  destruct (coded_macro _ _ _ _ _ _ _ C F) as (f' & ls & -> & GE & AC).
  exists f', (reg_text p), (PExpr (VInt z h')). rewrite !register_text. split; [exact A|]. split; [reflexivity|].
  unfold generate in GE. rewrite G in GE. unfold generate_branch in GE. rewrite CM, IM, RV, LK, RS, AI, AT in GE.
  cbn [with_int] in GE.
  assert (E : ls = branch_imm_lines k sg likely (reg_text p) y (PExpr (VInt z h'))).
  { clear - N GE. by_comparison N; cbn [condition reversed branch_imm_lines negative] in *.
    1,2: change (MIPSM_EQ =? MIPSM_NE) with false in GE || idtac; destruct (y =? 0); destruct likely; apply ROk_inj in GE; rewrite <- GE; reflexivity.
    all: destruct likely; apply ROk_inj in GE; rewrite <- GE; reflexivity. }
  subst ls. exact AC.
Qed.
Lemma branch_reg_coded f arch pc x k sg likely p q t a b z ws : In (x, (k, sg)) comparisons -> In k [RLt; RGt; RLe; RGe] ->
  coded f arch pc (ln (branch_name likely (x, (k, sg))) [p; q; t]) ws ->
  register Gpr p = Some a -> register Gpr q = Some b -> integer t = Some z ->
  exists f' p' q' t', register Gpr p' = Some a /\ register Gpr q' = Some b /\ integer t' = Some z /\
    all_coded f' arch pc (branch_reg_lines k sg likely p' q' t') ws.
Proof.
  intros N K C A B T. destruct (integer_immediate _ _ T) as [h' T'].
  destruct (branch_find_reg _ _ _ likely _ _ _ _ _ _ N K A B T') as (m & ar & F & G & CM & IM & RV & LK & RS & AI & AT).
  destruct (coded_macro _ _ _ _ _ _ _ C F) as (f' & ls & -> & GE & AC).
  exists f', (reg_text p), (reg_text q), (PExpr (VInt z h')). rewrite !register_text. split; [exact A|]. split; [exact B|]. split; [reflexivity|].
  unfold generate in GE. rewrite G in GE. unfold generate_branch in GE. rewrite CM, IM, RV, LK, RS, AI, AT in GE.
  assert (E : ls = branch_reg_lines k sg likely (reg_text p) (reg_text q) (PExpr (VInt z h'))).
  { clear - N K GE. by_comparison N; try (exfalso; cbn in K; intuition discriminate); cbn [condition reversed] in *;
    destruct likely; apply ROk_inj in GE; rewrite <- GE; reflexivity. }
  subst ls. exact AC.
Qed.
Lemma slt_zero b : (u32 (b2z b) =? 0) = negb b.
Proof. destruct b; reflexivity. Qed.
Lemma negative_of k sg v y : In k [RLt; RLe; RGt; RGe] -> xorb (negative k) (negb (compared (positive k) sg v y)) = compared k sg v y.
Proof.
  intros K. rewrite (positive_of k sg v y K). destruct k; try (exfalso; cbn in K; intuition discriminate); cbn [negative positive];
    destruct (compared _ sg v y); reflexivity.
Qed.
Lemma negative_eq k sg v y : In k [REq; RNe] -> 0 <= v < 4294967296 -> xorb (negative k) (v =? u32 y) = compared k sg v y.
Proof.
  intros K V. cbn in K. destruct K as [<-|[<-|[]]]; cbn [negative]; rewrite ?compared_eq, ?compared_ne, (u32_small v V); destruct (v =? u32 y); reflexivity.
Qed.
(** The branch after the comparison was left in the assembler temporary. *)
Lemma branch_end f arch pc k sg likely t z ws c c1 v y : all_coded f arch pc [ln (brz_of (negative k) likely) [rg "r1"; t]] ws ->
  In k [RLt; RLe; RGt; RGe] -> integer t = Some z -> reg c 0 = 0 ->
  c1 = set c 1 (b2z (compared (positive k) sg v y)) -> branches ws pc c1 (compared k sg v y) likely z.
Proof.
  intros AC K T Z0 ->. apply all_inv in AC. destruct AC as (w1 & w2 & -> & C & AC). ended AC.
  pose proof (brz_line _ _ _ _ _ _ _ _ _ _ (set c 1 (b2z (compared (positive k) sg v y))) C reg_r1 T) as B.
  rewrite set_same, set_other, Z0, slt_zero, negative_of in B by (lia || exact K). exact B.
Qed.
Lemma branch_imm_run f arch pc x k sg likely p t a y z ws c : In (x, (k, sg)) comparisons ->
  all_coded f arch pc (branch_imm_lines k sg likely p y t) ws -> register Gpr p = Some a -> integer t = Some z -> sane c -> a <> 1 ->
  branches ws pc c (compared k sg (reg c a) y) likely z.
Proof.
  intros N AC A T SC A1. pose proof (proj1 SC) as Z0. pose proof (sane_reg c a SC) as RA.
  assert (LI : forall f pc ls ws, all_coded f arch pc (ln "li" [rg "r1"; im y] :: ls) ws ->
     exists w1 w2 c1, ws = w1 ++ w2 /\ all_coded f arch (pc + 4 * Z.of_nat (List.length w1)) ls w2 /\ run w1 c = Some c1 /\ sets c 1 y c1 /\
       reg c1 0 = 0 /\ reg c1 1 = u32 y /\ reg c1 a = reg c a).
  { clear - A1 Z0. intros f pc ls ws H. apply all_inv in H. destruct H as (w1 & w2 & -> & C & H).
    destruct (li_line _ _ _ _ _ _ _ _ C reg_r1 Z0) as (c1 & R & S1). exists w1, w2, c1.
    split; [reflexivity|]. split; [exact H|]. split; [exact R|]. split; [exact S1|]. split; [rewrite (sets_zero _ _ _ _ S1); exact Z0|].
    split; [exact (sets_same _ _ _ _ S1 ltac:(lia))|]. apply (sets_other _ _ _ _ a S1). exact A1. }
  assert (EN : In k [REq; RNe] -> branches ws pc c (compared k sg (reg c a) y) likely z).
  { intros K. rewrite <- (negative_eq k sg _ y K RA).
    assert (E : branch_imm_lines k sg likely p y t = if y =? 0 then [ln (br_of (negative k) likely) [p; rg "r0"; t]]
                 else [ln "li" [rg "r1"; im y]; ln (br_of (negative k) likely) [p; rg "r1"; t]]) by (cbn in K; intuition subst; reflexivity).
    rewrite E in AC. destruct (y =? 0) eqn:Y.
    - apply all_inv in AC. destruct AC as (w1 & w2 & -> & C & AC). ended AC. apply Z.eqb_eq in Y. subst y.
      pose proof (br_line _ _ _ _ _ _ _ _ _ _ _ _ c C A reg_r0 T) as B. rewrite Z0 in B. exact B.
    - destruct (LI _ _ _ _ AC) as (w1 & w2 & c1 & -> & AC' & R & S1 & Z1 & D1 & A1').
      eapply branches_app; [exact R|exact S1|reflexivity|]. apply all_inv in AC'. destruct AC' as (w3 & w4 & -> & C & AC'). ended AC'.
      pose proof (br_line _ _ _ _ _ _ _ _ _ _ _ _ c1 C A reg_r1 T) as B. rewrite D1, A1' in B. exact B. }
  assert (LT : In k [RLt; RGe] -> branches ws pc c (compared k sg (reg c a) y) likely z).
  { intros K. assert (K' : In k [RLt; RLe; RGt; RGe]) by (cbn in K |- *; tauto).
    assert (E : positive k = RLt) by (cbn in K; intuition subst; reflexivity).
    assert (E' : branch_imm_lines k sg likely p y t = (if (y <? - 0x8000) || (0x8000 <=? y) then [ln "li" [rg "r1"; im y]; ln (slt_of sg) [rg "r1"; p; rg "r1"]]
                  else [ln (slti_of sg) [rg "r1"; p; im y]]) ++ [ln (brz_of (negative k) likely) [rg "r1"; t]]) by (cbn in K; intuition subst; reflexivity).
    rewrite E' in AC. destruct ((y <? - 0x8000) || (0x8000 <=? y)) eqn:SM; cbn [app] in AC.
    - destruct (LI _ _ _ _ AC) as (w1 & w2 & c1 & -> & AC' & R & S1 & Z1 & D1 & A1').
      eapply branches_app; [exact R|exact S1|reflexivity|]. apply all_inv in AC'. destruct AC' as (w3 & w4 & -> & C & AC').
      eapply branches_app; [exact (slt_line _ _ _ _ _ _ _ _ _ _ _ _ C reg_r1 A reg_r1)|apply sets_set|reflexivity|].
      eapply branch_end; [exact AC'|exact K'|exact T|exact Z1|]. rewrite D1, A1', less_lt, E by exact RA. reflexivity.
    - apply all_inv in AC. destruct AC as (w1 & w2 & -> & C & AC).
      eapply branches_app; [exact (slti_line _ _ _ _ _ _ _ _ _ _ _ C reg_r1 A ltac:(lia))|apply sets_set|reflexivity|].
      eapply branch_end; [exact AC|exact K'|exact T|exact Z0|]. rewrite less_lt, E by exact RA. reflexivity. }
  assert (GT : In k [RGt; RLe] -> branches ws pc c (compared k sg (reg c a) y) likely z).
  { intros K. assert (K' : In k [RLt; RLe; RGt; RGe]) by (cbn in K |- *; tauto).
    assert (E : positive k = RGt) by (cbn in K; intuition subst; reflexivity).
    assert (E' : branch_imm_lines k sg likely p y t = (if y =? 0 then [ln (slt_of sg) [rg "r1"; rg "r0"; p]]
                  else [ln "li" [rg "r1"; im y]; ln (slt_of sg) [rg "r1"; rg "r1"; p]]) ++ [ln (brz_of (negative k) likely) [rg "r1"; t]])
      by (cbn in K; intuition subst; reflexivity).
    rewrite E' in AC. destruct (y =? 0) eqn:Y; cbn [app] in AC.
    - apply all_inv in AC. destruct AC as (w1 & w2 & -> & C & AC). apply Z.eqb_eq in Y. subst y.
      eapply branches_app; [exact (slt_line _ _ _ _ _ _ _ _ _ _ _ _ C reg_r1 reg_r0 A)|apply sets_set|reflexivity|].
      eapply branch_end; [exact AC|exact K'|exact T|exact Z0|]. rewrite E, <- (less_gt sg _ 0 RA), Z0. reflexivity.
    - destruct (LI _ _ _ _ AC) as (w1 & w2 & c1 & -> & AC' & R & S1 & Z1 & D1 & A1').
      eapply branches_app; [exact R|exact S1|reflexivity|]. apply all_inv in AC'. destruct AC' as (w3 & w4 & -> & C & AC').
      eapply branches_app; [exact (slt_line _ _ _ _ _ _ _ _ _ _ _ _ C reg_r1 reg_r1 A)|apply sets_set|reflexivity|].
      eapply branch_end; [exact AC'|exact K'|exact T|exact Z1|]. rewrite D1, A1', less_gt, E by exact RA. reflexivity. }
  destruct k; (apply EN; cbn; tauto) || (apply LT; cbn; tauto) || (apply GT; cbn; tauto).
Qed.
Lemma branch_reg_run f arch pc k sg likely p q t a b z ws c : In k [RLt; RLe; RGt; RGe] ->
  all_coded f arch pc (branch_reg_lines k sg likely p q t) ws -> register Gpr p = Some a -> register Gpr q = Some b ->
  integer t = Some z -> sane c -> branches ws pc c (compared k sg (reg c a) (reg c b)) likely z.
Proof.
  intros K AC A B T SC. pose proof (proj1 SC) as Z0. pose proof (sane_reg c a SC) as RA. pose proof (sane_reg c b SC) as RB.
  unfold branch_reg_lines in AC. apply all_inv in AC. destruct AC as (w1 & w2 & -> & C & AC).
  assert (R : run w1 c = Some (set c 1 (b2z (compared (positive k) sg (reg c a) (reg c b))))).
  { destruct k; try (exfalso; cbn in K; intuition discriminate); cbn [positive].
    - rewrite (slt_line _ _ _ _ _ _ _ _ _ _ _ _ C reg_r1 A B), <- (less_lt sg _ _ RA), (u32_small _ RB). reflexivity.
    - rewrite (slt_line _ _ _ _ _ _ _ _ _ _ _ _ C reg_r1 B A), <- (less_gt sg _ _ RA), (u32_small _ RB). reflexivity.
    - rewrite (slt_line _ _ _ _ _ _ _ _ _ _ _ _ C reg_r1 B A), <- (less_gt sg _ _ RA), (u32_small _ RB). reflexivity.
    - rewrite (slt_line _ _ _ _ _ _ _ _ _ _ _ _ C reg_r1 A B), <- (less_lt sg _ _ RA), (u32_small _ RB). reflexivity. }
  eapply branches_app; [exact R|apply sets_set|reflexivity|]. eapply branch_end; [exact AC|exact K|exact T|exact Z0|reflexivity].
Qed.
Lemma branch_run f arch pc x k sg likely p q t a v z ws c : In (x, (k, sg)) comparisons ->
  coded f arch pc (ln (branch_name likely (x, (k, sg))) [p; q; t]) ws ->
  register Gpr p = Some a -> operand c q = Some v -> integer t = Some z -> sane c -> (register Gpr q = None -> a <> 1) ->
  branches ws pc c (compared k sg (reg c a) v) likely z.
Proof.
  intros N C A V T SC A1. unfold operand in V. destruct (register Gpr q) as [b|] eqn:Q.
  - injection V as <-. 
    assert (EN : In k [REq; RNe] -> branches ws pc c (compared k sg (reg c a) (reg c b)) likely z).
    { intros K. assert (E : branch_name likely (x, (k, sg)) = br_of (negative k) likely)
        by (clear - N K; by_comparison N; try (exfalso; cbn in K; intuition discriminate); destruct likely; reflexivity).
      rewrite E in C. pose proof (br_line _ _ _ _ _ _ _ _ _ _ _ _ c C A Q T) as B.
      rewrite <- (negative_eq k sg _ _ K (sane_reg c a SC)), (u32_small (reg c b) (sane_reg c b SC)). exact B. }
    destruct k; try (apply EN; cbn; tauto).
    all: match type of N with In (_, (?k, _)) _ => assert (K : In k [RLt; RLe; RGt; RGe]) by (cbn; tauto); assert (K' : In k [RLt; RGt; RLe; RGe]) by (cbn; tauto) end.
    all: destruct (branch_reg_coded _ _ _ _ _ _ _ _ _ _ _ _ _ _ N K' C A Q T) as (f' & p' & q' & t' & A' & B' & T' & AC).
    all: exact (branch_reg_run _ _ _ _ _ _ _ _ _ _ _ _ _ _ K AC A' B' T' SC).
  - destruct (branch_imm_coded _ _ _ _ _ _ _ _ _ _ _ _ _ _ N C A V T) as (f' & p' & t' & A' & T' & AC).
    exact (branch_imm_run _ _ _ _ _ _ _ _ _ _ _ _ _ _ N AC A' T' SC (A1 eq_refl)).
Qed.
