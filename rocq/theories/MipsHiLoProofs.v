(** The macro lemmas for whole lines, and hi() and lo(). *)

Require Import ZArith Lia Bool List String Ascii.
Require Import ZifyBool.
Require Import Verif.Ints Verif.IntsLemmas Verif.BitFields Verif.Res Verif.MipsTable Verif.MipsModel Verif.MipsSpec
  Verif.MipsProofs Verif.MipsWordProofs Verif.MipsCpu Verif.MipsDecodeProofs Verif.MipsMacroModel Verif.MipsExecProofs
  Verif.MipsMacroSpec Verif.MipsMacroProofs Verif.MipsAccessProofs Verif.MipsUnalignedProofs Verif.MipsCompareProofs Verif.MipsRotateProofs.
Require Verif.ExprModel Verif.ExprFuncModel.
Import ListNotations.
Local Open Scope string_scope.
Local Open Scope list_scope.
Local Open Scope Z_scope.

Lemma hi_lo_eval users st e x ms :
  let eval := ExprModel.eval (ExprFuncModel.make_registry ExprFuncModel.mips_functions users) st in
  eval e = ExprModel.OVal (ExprModel.VInt x) ms ->
  exists h l, eval (ExprModel.ECall "hi" [e]) = ExprModel.OVal (ExprModel.VInt h) ms /\
    eval (ExprModel.ECall "lo" [e]) = ExprModel.OVal (ExprModel.VInt l) ms /\
    0 <= h < 2 ^ 16 /\ - 2 ^ 15 <= l < 2 ^ 15 /\ (h * 2 ^ 16 + l) mod 2 ^ 32 = x mod 2 ^ 32.
Proof.
  intros eval E. exists (hi_of x), (lo_of x).
  assert (H : forall n f, ExprFuncModel.make_registry ExprFuncModel.mips_functions users n = Some (ExprModel.mkEntry 1 1 ExprModel.Safe (ExprModel.FValue f)) ->
    eval (ExprModel.ECall n [e]) = ExprModel.obind (ExprModel.OVal (ExprModel.VInt x) ms) (fun v => f st [v])).
  { intros n f R. unfold eval. cbn [ExprModel.eval]. unfold ExprModel.call_function. rewrite R. cbn [ExprModel.fe_min ExprModel.fe_max ExprModel.fe_fun List.length Nat.ltb Nat.leb].
    cbn [ExprModel.eval_list]. fold eval. rewrite E. cbn [ExprModel.obind ExprModel.is_valid ExprModel.oret]. rewrite ?app_nil_r. 
    destruct (f st [ExprModel.VInt x]); reflexivity. }
  split; [rewrite (H "hi" ExprFuncModel.f_hi eq_refl)|split; [rewrite (H "lo" ExprFuncModel.f_lo eq_refl)|]].
  - change (ExprModel.OVal (ExprModel.VInt (Z.land (Z.shiftr x 16 + ExprModel.bool_int (negb (Z.land x 32768 =? 0))) 65535)) (ms ++ []) =
      ExprModel.OVal (ExprModel.VInt (hi_of x)) ms).
    rewrite app_nil_r. do 2 f_equal. unfold hi_of. rewrite Z.shiftr_div_pow2 by lia. destruct (Z.land x 32768 =? 0); reflexivity.
  - change (ExprModel.OVal (ExprModel.VInt (lo_of x)) (ms ++ []) = ExprModel.OVal (ExprModel.VInt (lo_of x)) ms). rewrite app_nil_r. reflexivity.
  - change (2 ^ 16) with 65536. change (2 ^ 15) with 32768. split; [apply hi_range|]. split; [rewrite lo_spec; pose proof (s16_bounds x); lia|].
    destruct (hi_lo x) as [k K]. rewrite K. rewrite (Z.mul_comm 4294967296). change 4294967296 with (2 ^ 32). apply Z_mod_plus_full.
Qed.
Lemma lui_addiu s s' ignore ignore' pc pc' p q p1 p2 q2 n x h l out out' c :
  0 <= h < 2 ^ 16 -> - 2 ^ 15 <= l < 2 ^ 15 -> (h * 2 ^ 16 + l) mod 2 ^ 32 = x mod 2 ^ 32 ->
  mips_assemble s ignore pc "lui" [p; PSym ","; q] = ROk out -> register Gpr p = Some n -> integer q = Some h ->
  mips_assemble s' ignore' pc' "addiu" [p1; PSym ","; p2; PSym ","; q2] = ROk out' -> register Gpr p1 = Some n -> register Gpr p2 = Some n ->
  integer q2 = Some l -> n <> 0 ->
  exists c', run (x_words out ++ x_words out') c = Some c' /\ reg c' n = x mod 2 ^ 32 /\ (forall r, r <> n -> reg c' r = reg c r) /\ ram c' = ram c.
Proof.
  intros H L X A R I A' R1 R2 I2 NZ. rewrite run_app, (exec_lui _ _ _ _ _ _ _ _ _ A R I).
  rewrite (exec_imm "addiu" (9 * 2 ^ 26) _ _ _ _ _ _ _ _ _ _ _ ltac:(apply in_imm; reflexivity) A' R1 R2 I2).
  change (9 * 2 ^ 26 / 2 ^ 26) with 9. cbn [immop]. eexists. split; [reflexivity|]. split.
  - rewrite !set_same by exact NZ. rewrite (s16_id l) by lia. rewrite Z.mod_small by lia. rewrite <- X. change (2 ^ 32) with 4294967296. change (2 ^ 16) with 65536.
    unfold u32. rewrite Zplus_mod_idemp_l. reflexivity.
  - split; [intros r NE; rewrite !set_other by exact NE; reflexivity|]. rewrite !set_ram. reflexivity.
Qed.
Lemma lui_access s s' ignore ignore' pc pc' name t p q p1 q1 r1 n d x h l out out' c :
  In (name, t) transfers -> t_cop t = false ->
  0 <= h < 2 ^ 16 -> - 2 ^ 15 <= l < 2 ^ 15 -> (h * 2 ^ 16 + l) mod 2 ^ 32 = x mod 2 ^ 32 ->
  mips_assemble s ignore pc "lui" [p; PSym ","; q] = ROk out -> register Gpr p = Some n -> integer q = Some h -> n <> 0 ->
  mips_assemble s' ignore' pc' name [p1; PSym ","; q1; PSym "("; r1; PSym ")"] = ROk out' -> register Gpr p1 = Some d ->
  integer q1 = Some l -> register Gpr r1 = Some n ->
  exists c' w, run (x_words out) c = Some c' /\ (x_words out' = [w] \/ x_words out' = [0; w]) /\
    access_of w c' = Some (t_code t, d, x mod 2 ^ 32).
Proof.
  intros N NC H L X A R I NZ A' R1 I1 RB. rewrite (exec_lui _ _ _ _ _ _ _ _ _ A R I).
  assert (M : In (name, t_code t) mem_names /\ among (t_code t)
    [0x1A; 0x1B; 0x20; 0x21; 0x22; 0x23; 0x24; 0x25; 0x26; 0x27; 0x28; 0x29; 0x2A; 0x2B; 0x2C; 0x2D; 0x2E;
     0x30; 0x31; 0x32; 0x34; 0x35; 0x36; 0x37; 0x38; 0x39; 0x3A; 0x3C; 0x3D; 0x3E; 0x3F] = true).
  { clear - N NC. cbn in N. repeat (destruct N as [N|N]; [injection N as <- <-; first [discriminate NC|split; [apply in_imm; reflexivity|reflexivity]]|]). destruct N. }
  destruct M as [M AM]. destruct (line_mem _ _ _ _ _ _ _ _ _ _ _ _ M A' R1 I1 RB) as (w & W & AW).
  exists (set c n (h mod 65536 * 65536)), w. split; [reflexivity|]. split; [exact W|].
  rewrite (access_word_of _ _ _ _ _ _ AW AM). rewrite set_same by exact NZ. rewrite (s16_id l) by lia. rewrite Z.mod_small by lia.
  do 2 f_equal. rewrite <- X. unfold u32. rewrite Zplus_mod_idemp_l. reflexivity.
Qed.

Lemma sets_spelled c n v c' : sets c n v c' -> n <> 0 -> reg c' n = u32 v /\ (forall r, r <> n -> reg c' r = reg c r) /\ ram c' = ram c.
Proof.
  intros H NZ. split; [exact (sets_same _ _ _ _ H NZ)|]. split; [intros r NE; exact (sets_other _ _ _ _ _ H NE)|exact (sets_ram _ _ _ _ H)].
Qed.
Lemma li_whole depth s ignore pc name p q n z out c : In name ["li"; "la"] ->
  mips_line depth s ignore pc name [p; PSym ","; q] = ROk out ->
  register Gpr p = Some n -> integer q = Some z -> sane c -> n <> 0 ->
  exists c', run (x_words out) c = Some c' /\ reg c' n = z mod 2 ^ 32 /\ (forall r, r <> n -> reg c' r = reg c r) /\ ram c' = ram c.
Proof.
  intros N A R I SC NZ. apply mips_line_coded in A.
  assert (K : In (name, (true, true)) li_kinds) by (cbn in N |- *; intuition subst; auto).
  destruct (li_run _ _ _ _ _ _ _ _ _ c A K R I (proj1 SC)) as (c' & RN & S1). exists c'. split; [exact RN|]. exact (sets_spelled _ _ _ _ S1 NZ).
Qed.
Lemma li_parts depth depth' s s' ignore ignore' pc pc' name name' p q p' q' n z out out' c :
  In (name, name') [("li.u", "li.l"); ("la.u", "la.l")] ->
  mips_line depth s ignore pc name [p; PSym ","; q] = ROk out ->
  mips_line depth' s' ignore' pc' name' [p'; PSym ","; q'] = ROk out' ->
  register Gpr p = Some n -> integer q = Some z -> register Gpr p' = Some n -> integer q' = Some z -> n <> 0 ->
  exists c1, run (x_words out) c = Some c1 /\ (forall r, r <> n -> reg c1 r = reg c r) /\ ram c1 = ram c /\
  forall c2, reg c2 n = reg c1 n -> sane c2 ->
  exists c3, run (x_words out') c2 = Some c3 /\ reg c3 n = z mod 2 ^ 32 /\ (forall r, r <> n -> reg c3 r = reg c2 r) /\ ram c3 = ram c2.
Proof.
  intros N A A' R I R' I' NZ. apply mips_line_coded in A. apply mips_line_coded in A'.
  assert (K : In (name, (true, false)) li_kinds /\ In (name', (false, true)) li_kinds).
  { cbn in N. destruct N as [N|[N|[]]]; injection N as <- <-; split; cbn; auto 10. }
  destruct (li_halves _ _ _ _ _ _ _ _ _ _ _ _ _ _ _ _ c A A' (proj1 K) (proj2 K) R I R' I' NZ) as (c1 & RN & O & M & H).
  exists c1. split; [exact RN|]. split; [exact O|]. split; [exact M|]. intros c2 E SC.
  destruct (H c2 E (proj1 SC)) as (c3 & RN3 & S3). exists c3. split; [exact RN3|]. exact (sets_spelled _ _ _ _ S3 NZ).
Qed.
Lemma set_whole depth s ignore pc x k signed p q r d a v out c : In (x, (k, signed)) comparisons ->
  mips_line depth s ignore pc (set_name (x, (k, signed))) [p; PSym ","; q; PSym ","; r] = ROk out ->
  register Gpr p = Some d -> register Gpr q = Some a -> operand c r = Some v -> sane c -> d <> 0 ->
  (forall z, integer r = Some z -> d <> a \/ in_place k z) ->
  exists c', run (x_words out) c = Some c' /\ reg c' d = b2z (compared k signed (reg c a) v) /\
    (forall y, y <> d -> reg c' y = reg c y) /\ ram c' = ram c.
Proof.
  intros N A D RA V SC D0 IP. apply mips_line_coded in A.
  destruct (set_run _ _ _ _ _ _ _ _ _ _ _ _ _ c N A D RA V SC D0 IP) as (c' & RN & S1). exists c'. split; [exact RN|].
  destruct (sets_spelled _ _ _ _ S1 D0) as (E & O & M). split; [rewrite E; destruct (compared _ _ _ _); reflexivity|]. split; [exact O|exact M].
Qed.
Lemma branch_whole depth s ignore pc x k signed likely p q t a v z out c : In (x, (k, signed)) comparisons ->
  mips_line depth s ignore pc (branch_name likely (x, (k, signed))) [p; PSym ","; q; PSym ","; t] = ROk out ->
  register Gpr p = Some a -> operand c q = Some v -> integer t = Some z -> sane c -> (register Gpr q = None -> a <> 1) ->
  branches (x_words out) pc c (compared k signed (reg c a) v) likely z.
Proof. intros N A. apply mips_line_coded in A. exact (branch_run _ _ _ _ _ _ _ _ _ _ _ _ _ _ c N A). Qed.
Lemma rotate_whole depth s ignore pc left p q r d a v out c :
  mips_line depth s ignore pc (rot_name left) [p; PSym ","; q; PSym ","; r] = ROk out ->
  register Gpr p = Some d -> register Gpr q = Some a -> operand c r = Some v -> sane c ->
  d <> 0 -> d <> 1 -> a <> 1 -> register Gpr r <> Some 1 ->
  exists c', run (x_words out) c = Some c' /\ sets_at c d (rotated left (reg c a) v) c'.
Proof. intros A. apply mips_line_coded in A. exact (rotate_run _ _ _ _ _ _ _ _ _ _ _ c A). Qed.
Lemma abs_whole depth s ignore pc p q d a out c :
  mips_line depth s ignore pc "abs" [p; PSym ","; q] = ROk out ->
  register Gpr p = Some d -> register Gpr q = Some a -> sane c -> d <> 0 -> d <> 1 -> a <> 1 ->
  exists c', run (x_words out) c = Some c' /\ sets_at c d (u32 (Z.abs (s32 (reg c a)))) c'.
Proof. intros A. apply mips_line_coded in A. exact (abs_run _ _ _ _ _ _ _ _ c A). Qed.
Lemma ulhu_whole depth s ignore pc p q r d b z out c :
  mips_line depth s ignore pc "ulhu" [p; PSym ","; q; PSym "("; r; PSym ")"] = ROk out ->
  register Gpr p = Some d -> integer q = Some z -> register Gpr r = Some b -> -32768 <= z < 32768 ->
  sane c -> d <> 0 -> d <> 1 -> b <> 1 ->
  exists c', run (x_words out) c = Some c' /\ reg c' d = bytes_at 2 c (reg c b + z) /\
    (forall x, x <> d -> x <> 1 -> reg c' x = reg c x) /\ ram c' = ram c.
Proof. intros A. apply mips_line_coded in A. exact (ulhu_run _ _ _ _ _ _ _ _ _ _ c A). Qed.
Lemma ulh_whole depth s ignore pc p q r d b z out c :
  mips_line depth s ignore pc "ulh" [p; PSym ","; q; PSym "("; r; PSym ")"] = ROk out ->
  register Gpr p = Some d -> integer q = Some z -> register Gpr r = Some b -> -32768 <= z < 32768 ->
  sane c -> d <> 0 -> d <> 1 -> b <> 1 -> peek c (reg c b + z) < 128 ->
  exists c', run (x_words out) c = Some c' /\ reg c' d = u32 (s16 (bytes_at 2 c (reg c b + z))) /\
    (forall x, x <> d -> x <> 1 -> reg c' x = reg c x) /\ ram c' = ram c.
Proof. intros A. apply mips_line_coded in A. exact (ulh_run _ _ _ _ _ _ _ _ _ _ c A). Qed.
Lemma ulw_whole depth s ignore pc p q r d b z out c :
  mips_line depth s ignore pc "ulw" [p; PSym ","; q; PSym "("; r; PSym ")"] = ROk out ->
  register Gpr p = Some d -> integer q = Some z -> register Gpr r = Some b -> -32768 <= z < 32768 -> sane c -> d <> 0 ->
  exists c', run (x_words out) c = Some c' /\ reg c' d = bytes_at 4 c (reg c b + z) /\ (forall x, x <> d -> reg c' x = reg c x) /\ ram c' = ram c.
Proof. intros A. apply mips_line_coded in A. exact (ulw_run _ _ _ _ _ _ _ _ _ _ c A). Qed.
Lemma usw_whole depth s ignore pc p q r d b z out c :
  mips_line depth s ignore pc "usw" [p; PSym ","; q; PSym "("; r; PSym ")"] = ROk out ->
  register Gpr p = Some d -> integer q = Some z -> register Gpr r = Some b -> -32768 <= z < 32768 ->
  exists c', run (x_words out) c = Some c' /\ reg c' = reg c /\
    forall x, 0 <= x < 4294967296 -> ram c' x = bytes_put 4 (ram c) (reg c b + z) (reg c d) x.
Proof. intros A. apply mips_line_coded in A. exact (usw_run _ _ _ _ _ _ _ _ _ _ c A). Qed.
Lemma ush_whole depth s ignore pc p q r d b z out c :
  mips_line depth s ignore pc "ush" [p; PSym ","; q; PSym "("; r; PSym ")"] = ROk out ->
  register Gpr p = Some d -> integer q = Some z -> register Gpr r = Some b -> -32768 <= z < 32768 -> b <> 1 ->
  exists c', run (x_words out) c = Some c' /\ (forall x, x <> 1 -> reg c' x = reg c x) /\
    forall x, 0 <= x < 4294967296 -> ram c' x = bytes_put 2 (ram c) (reg c b + z) (reg c d) x.
Proof. intros A. apply mips_line_coded in A. exact (ush_run _ _ _ _ _ _ _ _ _ _ c A). Qed.
