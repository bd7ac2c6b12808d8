(** Proofs about the function for the constructors of MIPS objects: where its instructions are. *)

Require Import ZArith Bool List String Ascii Lia ZifyBool.
Require Import Verif.Ints Verif.IntsLemmas Verif.Res Verif.MipsTable Verif.MipsModel Verif.MipsSpec Verif.MipsCpu Verif.MipsMacroModel.
Require Import Verif.MipsExecProofs Verif.MipsMacroProofs Verif.MipsHiLoProofs.
Require Import Verif.CtorModel Verif.CtorSpec Verif.CtorProofs Verif.CtorRunProofs.
Import ListNotations.
Local Open Scope string_scope.
Local Open Scope list_scope.
Local Open Scope Z_scope.

Lemma place_li depth ignore p n z s pc rest ws ms s' : register Gpr (gpr p) = Some n -> n <> 0 ->
  mips_place depth s ignore pc (Line "li" [gpr p; PSym ","; val z] :: rest) = ROk (ws, ms, s') ->
  exists ws1 ws2 s1, ws = ws1 ++ ws2 /\
    (forall c, sane c -> exists c', run ws1 c = Some c' /\ sane c' /\ reg c' n = u32 z /\ (forall r, r <> n -> reg c' r = reg c r) /\ ram c' = ram c) /\
    mips_place depth s1 ignore (pc + 4 * Z.of_nat (List.length ws1)) rest = ROk (ws2, ms, s').
Proof.
  intros R NZ P. apply place_line in P. destruct P as (o & ws' & L & -> & P). exists (x_words o), ws', (x_state o).
  split; [reflexivity|]. split; [|exact P]. intros c SC.
  destruct (li_whole depth s ignore pc "li" (gpr p) (val z) n z o c (or_introl eq_refl) L R eq_refl SC NZ) as (c' & RN & V & OT & M).
  exists c'. split; [exact RN|]. split; [|auto].
  destruct SC as (S0 & S1 & S2). split; [rewrite OT by lia; exact S0|]. split.
  - intros r. destruct (Z.eq_dec r n) as [->|NE]; [rewrite V; apply Z.mod_pos_bound; reflexivity|rewrite OT by exact NE; apply S1].
  - intros a. rewrite M. apply S2.
Qed.

Lemma loaded_head code pc w ws : loaded code pc (w :: ws) -> code pc = Some w /\ loaded code (pc + 4) ws.
Proof. intros L. change (w :: ws) with ([w] ++ ws) in L. apply loaded_app in L. destruct L as [A B]. split; [exact (loaded_one _ _ _ A)|exact B]. Qed.

Lemma marks_inj (x y : ctor_label) (a b : Z) l l' : (x, a) :: l = (y, b) :: l' -> a = b /\ l = l'.
Proof. intros E. split; congruence. Qed.
Lemma small_back d : - 0x1000 <= d < 0 -> s32 d <> 0x20000.
Proof.
  intros H. unfold s32. replace (d mod 4294967296) with (d + 4294967296) by (apply Z.mod_unique with (-1); lia). cbv zeta.
  destruct (d + 4294967296 <? 2147483648) eqn:E; lia.
Qed.
Lemma mod4 a n : a mod 4 = 0 -> (a + 4 * n) mod 4 = 0.
Proof. intros H. rewrite Z.mul_comm, Z.mod_add by lia. exact H. Qed.

Lemma stub_shape depth s ignore base tab outer inner n ws s' :
  mips_stub depth s ignore base tab outer inner (S n) = ROk (ws, [(OuterLoop, outer); (InnerLoop, inner); (CtorTable, tab)], s') ->
  shape (code_at 4 base ws) base tab outer inner (8 * Z.of_nat (S n)).
Proof.
  unfold mips_stub. intros P. pose proof (loaded_code base ws) as LD. set (code := code_at 4 base ws) in *. clearbody code.
  set (size := 8 * Z.of_nat (S n)) in *.
  change (mips_template tab outer inner (S n)) with
    (map entry_line head_block ++ Line "li" [gpr "s0"; PSym ","; val tab] :: Line "li" [gpr "s1"; PSym ","; val (tab + size)] ::
     Mark OuterLoop :: map entry_line outer_block ++ Mark InnerLoop :: map entry_line call_block ++
     Line "jalr" [gpr "a0"] :: Line "addiu" [gpr "s2"; PSym ","; val 4] ::
     Line "bne" [gpr "s2"; PSym ","; gpr "s3"; PSym ","; val inner] :: Line "nop" [] ::
     Line "bne" [gpr "s0"; PSym ","; gpr "s1"; PSym ","; val outer] :: Line "nop" [] ::
     map entry_line tail_block ++ Line "jr" [gpr "ra"] :: Line "addiu" [gpr "sp"; PSym ","; val 32] :: [Mark CtorTable]) in P.
  destruct (place_block _ _ _ _ _ _ _ _ _ head_fixed P) as (h & ws2 & s1 & -> & RH & P1 & _ & AL & _). clear P.
  specialize (AL ltac:(discriminate)).
  destruct (place_li _ _ "s0" 16 _ _ _ _ _ _ _ eq_refl ltac:(lia) P1) as (l1 & ws3 & s2 & -> & L1 & P2). clear P1.
  destruct (place_li _ _ "s1" 17 _ _ _ _ _ _ _ eq_refl ltac:(lia) P2) as (l2 & ws4 & s3 & -> & L2 & P3). clear P2.
  apply place_mark in P3. destruct P3 as (ms1 & E1 & P3). apply marks_inj in E1. destruct E1 as [E1 M1]. subst ms1. rewrite <- E1 in P3.
  destruct (place_block _ _ _ _ _ _ _ _ _ outer_fixed P3) as (o & ws5 & s4 & -> & RO & P4 & ST4 & _ & LO). clear P3.
  apply place_mark in P4. destruct P4 as (ms2 & E2 & P4). apply marks_inj in E2. destruct E2 as [E2 M2]. subst ms2. rewrite <- E2 in P4.
  destruct (place_block _ _ _ _ _ _ _ _ _ call_fixed P4) as (k & ws6 & s5 & -> & RK & P5 & _ & _ & LK). clear P4.
  destruct (place_fixed _ _ _ _ _ _ _ _ _ _ _ _ jalr_fixed P5) as (pre & ws7 & s6 & -> & PRE & _ & P6 & ST6). clear P5.
  destruct (place_settled _ _ _ _ _ _ _ _ _ _ _ _ next_fixed (ST6 eq_refl) P6) as (ws8 & s7 & -> & P7 & ST7). clear P6.
  set (j := inner + 4 * Z.of_nat (List.length k) + 4 * Z.of_nat (List.length pre)) in *.
  assert (PL : (List.length pre <= 1)%nat) by (destruct PRE as [-> | ->]; cbn; lia).
  cbn [outer_block call_block List.length] in LO, LK.
  assert (ALo : outer mod 4 = 0) by (rewrite E1; repeat apply mod4; exact AL).
  assert (ALi : inner mod 4 = 0) by (rewrite E2; apply mod4; exact ALo).
  destruct (place_branch _ _ "s2" "s3" 18 19 inner _ _ _ _ _ _ (or_introl eq_refl) P7 eq_refl eq_refl (ST7 eq_refl) ALi) as (w1 & ws9 & s8 & -> & B1 & T1 & P8 & ST8).
  { apply small_back. unfold j. clear - PL LK. lia. }
  clear P7.
  destruct (place_settled _ _ _ _ _ _ _ _ _ _ _ _ nop_fixed ST8 P8) as (ws10 & s9 & -> & P9 & ST9). clear P8.
  destruct (place_branch _ _ "s0" "s1" 16 17 outer _ _ _ _ _ _ (or_intror (or_introl eq_refl)) P9 eq_refl eq_refl (ST9 eq_refl) ALo) as (w2 & ws11 & s10 & -> & B2 & T2 & P10 & ST10).
  { apply small_back. unfold j. rewrite E2. clear - PL LK LO. lia. }
  clear P9.
  destruct (place_settled _ _ _ _ _ _ _ _ _ _ _ _ nop_fixed ST10 P10) as (ws12 & s11 & -> & P11 & ST11). clear P10.
  destruct (place_block _ _ _ _ _ _ _ _ _ tail_fixed P11) as (t & ws13 & s12 & -> & RT & P12 & _ & _ & _). clear P11.
  destruct (place_fixed _ _ _ _ _ _ _ _ _ _ _ _ jr_fixed P12) as (pre2 & ws14 & s13 & -> & PRE2 & _ & P13 & ST13). clear P12.
  destruct (place_settled _ _ _ _ _ _ _ _ _ _ _ _ leave_fixed (ST13 eq_refl) P13) as (ws15 & s14 & -> & P14 & _). clear P13.
  apply place_mark in P14. destruct P14 as (ms3 & E3 & P14). apply marks_inj in E3. destruct E3 as [E3 M3].
  (* the code *)
  apply loaded_app in LD. destruct LD as [LD1 LD]. apply loaded_app in LD. destruct LD as [LD2 LD]. apply loaded_app in LD. destruct LD as [LD3 LD].
  rewrite <- E1 in LD. apply loaded_app in LD. destruct LD as [LDo LD]. rewrite <- E2 in LD.
  apply loaded_app in LD. destruct LD as [LDk LD]. apply loaded_app in LD. destruct LD as [LDp LD]. fold j in LD.
  apply loaded_head in LD. destruct LD as [C1 LD]. apply loaded_head in LD. destruct LD as [C2 LD].
  apply loaded_head in LD. destruct LD as [C3 LD]. apply loaded_head in LD. destruct LD as [C4 LD].
  apply loaded_head in LD. destruct LD as [C5 LD]. apply loaded_head in LD. destruct LD as [C6 LD].
  apply loaded_app in LD. destruct LD as [LDt LD]. apply loaded_app in LD. destruct LD as [LDp2 LD].
  apply loaded_head in LD. destruct LD as [C7 LD]. apply loaded_head in LD. destruct LD as [C8 _].
  replace (j + 4 + 4) with (j + 8) in * by lia. replace (j + 8 + 4) with (j + 12) in * by lia. replace (j + 12 + 4) with (j + 16) in * by lia.
  replace (j + 16 + 4) with (j + 20) in * by lia. replace (j + 20 + 4) with (j + 24) in * by lia.
  constructor.
  - exact AL.
  - exists (h ++ l1 ++ l2). split; [|split].
    + intros i w E. destruct (Nat.ltb_spec i (List.length h)) as [I|I].
      { apply LD1. rewrite nth_error_app1 in E by exact I. exact E. }
      rewrite nth_error_app2 in E by exact I. destruct (Nat.ltb_spec (i - List.length h) (List.length l1)) as [I2|I2].
      { rewrite nth_error_app1 in E by exact I2. apply LD2 in E. rewrite <- E. f_equal. lia. }
      rewrite nth_error_app2 in E by exact I2. apply LD3 in E. rewrite <- E. f_equal. lia.
    + rewrite E1, !app_length, !Nat2Z.inj_add. lia.
    + intros c c1 SC R. rewrite run_app, RH. change (map entry_word head_block) with
        [666763232; 2948530176; 2947547140; 2947612680; 2947678220; 2947743760]. rewrite R.
      destruct (L1 _ SC) as (c2 & R2 & SC2 & V2 & O2 & M2). destruct (L2 _ SC2) as (c3 & R3 & _ & V3 & O3 & M3').
      exists c3. rewrite run_app, R2. split; [exact R3|]. split; [rewrite O3 by lia; exact V2|]. split; [exact V3|].
      split; [congruence|]. intros r N1 N2. rewrite O3, O2 by assumption. reflexivity.
  - exists o. split; [exact LDo|]. split; [exact E2|exact RO].
  - exists (k ++ pre), w1, w2, (t ++ pre2), j, (j + 24 + 4 * Z.of_nat (List.length t) + 4 * Z.of_nat (List.length pre2)).
    split. { intros i w E. destruct (Nat.ltb_spec i (List.length k)) as [I|I].
      { apply LDk. rewrite nth_error_app1 in E by exact I. exact E. }
      rewrite nth_error_app2 in E by exact I. apply LDp in E. rewrite <- E. f_equal. lia. }
    split. { unfold j. rewrite app_length, Nat2Z.inj_add. lia. }
    split. { intros c. rewrite run_app, RK. change (map entry_word call_block) with [2386821120].
      destruct (run [2386821120] c); [|reflexivity]. destruct PRE as [-> | ->]; reflexivity. }
    split; [exact C1|]. split; [exact C2|]. split; [exact C3|]. split; [exact C4|]. split; [exact B1|]. split; [exact T1|].
    split; [exact C5|]. split; [exact C6|]. split; [exact B2|]. split; [exact T2|].
    split. { intros i w E. destruct (Nat.ltb_spec i (List.length t)) as [I|I].
      { apply LDt. rewrite nth_error_app1 in E by exact I. exact E. }
      rewrite nth_error_app2 in E by exact I. apply LDp2 in E. rewrite <- E. f_equal. lia. }
    split. { rewrite app_length, Nat2Z.inj_add. lia. }
    split. { intros c. rewrite run_app, RT. change (map entry_word tail_block) with [2411659264; 2410676228; 2410741768; 2410807308; 2410872848].
      destruct (run [2411659264; 2410676228; 2410741768; 2410807308; 2410872848] c); [|reflexivity]. destruct PRE2 as [-> | ->]; reflexivity. }
    split; [exact C7|]. split; [exact C8|]. lia.
Qed.
