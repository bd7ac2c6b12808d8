(** Proofs about the macros that load and store. *)

Require Import ZArith Lia Bool List String Ascii.
Require Import ZifyBool.
Require Import Verif.Ints Verif.IntsLemmas Verif.BitFields Verif.Res Verif.MipsTable Verif.MipsModel Verif.MipsSpec
  Verif.MipsProofs Verif.MipsWordProofs Verif.MipsCpu Verif.MipsDecodeProofs Verif.MipsMacroModel Verif.MipsExecProofs Verif.MipsMacroSpec Verif.MipsMacroProofs.
Import ListNotations.
Local Open Scope string_scope.
Local Open Scope list_scope.
Local Open Scope Z_scope.

(** ** Loads and stores *)

Lemma case_word z : (Z.land z (Z.lnot 0xFFFFFFFF) =? 0) = (0 <=? z) && (z <? 4294967296).
Proof. change 0xFFFFFFFF with (2 ^ 32 - 1). rewrite land_high by lia. change (2 ^ 32) with 4294967296. Z.div_mod_to_equations. lia. Qed.

(** Name, instruction, its code, whether it stores and whether its register is one of a coprocessor. *)
Definition ls_ops : list (string * (string * Z * bool * bool)) :=
  [("lb", ("lb", 0x20, false, false)); ("lbu", ("lbu", 0x24, false, false)); ("lh", ("lh", 0x21, false, false));
   ("lhu", ("lhu", 0x25, false, false)); ("lw", ("lw", 0x23, false, false)); ("lwu", ("lwu", 0x27, false, false));
   ("ld", ("ld", 0x37, false, false)); ("ll", ("ll", 0x30, false, false)); ("lld", ("lld", 0x34, false, false));
   ("lwc1", ("lwc1", 0x31, false, true)); ("l.s", ("lwc1", 0x31, false, true)); ("lwc2", ("lwc2", 0x32, false, true));
   ("ldc1", ("ldc1", 0x35, false, true)); ("l.d", ("ldc1", 0x35, false, true)); ("ldc2", ("ldc2", 0x36, false, true));
   ("sb", ("sb", 0x28, true, false)); ("sh", ("sh", 0x29, true, false)); ("sw", ("sw", 0x2B, true, false));
   ("sd", ("sd", 0x3F, true, false)); ("sc", ("sc", 0x38, true, false)); ("scd", ("scd", 0x3C, true, false));
   ("swc1", ("swc1", 0x39, true, true)); ("s.s", ("swc1", 0x39, true, true)); ("swc2", ("swc2", 0x3A, true, true));
   ("sdc1", ("sdc1", 0x3D, true, true)); ("s.d", ("sdc1", 0x3D, true, true)); ("sdc2", ("sdc2", 0x3E, true, true))].
Definition ls_halves (x : string * (string * Z * bool * bool)) : list (string * (string * Z * bool * bool) * (bool * bool)) :=
  [(fst x, snd x, (true, true)); ((fst x ++ ".u")%string, snd x, (true, false)); ((fst x ++ ".l")%string, snd x, (false, true))].
Definition file (cop : bool) : regkind := if cop then Fpr else Gpr.
Lemma ls_find name op code st cop up lo p q n v :
  In (name, (op, code, st, cop), (up, lo)) (flat_map ls_halves ls_ops) ->
  register (file cop) p = Some n -> parse_immediate q = Some v ->
  exists m a, find_macro mipsMacros name [p; PSym ","; q] = Some (m, a) /\ k_gen m = GLoadStore /\ access_op (k_flags m) = Some (op, cop) /\
    has (k_flags m) MIPSM_STORE = st /\ has (k_flags m) MIPSM_UPPER = up /\ has (k_flags m) MIPSM_LOWER = lo /\
    (if cop then a_frs a else a_rs a) = reg_text p /\ a_I a = Some v.
Proof.
  intros N R I. cbv in N.
  repeat (destruct N as [N|N]; [injection N as <- <- <- <- <- <- <-; cbn [file] in R; eexists; eexists; split; [fit|repeat split]|]); destruct N.
Qed.

Lemma ls_lines fuel arch pc name op code st cop up lo p q n z ws : coded fuel arch pc (name, [p; PSym ","; q]) ws ->
  In (name, (op, code, st, cop), (up, lo)) (flat_map ls_halves ls_ops) ->
  register (file cop) p = Some n -> integer q = Some z ->
  exists fuel' r, register (file cop) r = Some n /\ 0 <= z < 4294967296 /\
  let temp := if cop || st then rg "r1" else r in
  all_coded fuel' arch pc
    (if (z <? 0x8000) || (0xFFFF8000 <=? z) then if lo then [lmem op r (s16 z) (rg "r0")] else if up then [ln "nop" []] else []
     else (if up then [ln "lui" [temp; im (hi_of z)]] else []) ++ (if lo then [lmem op r (s16 z) temp] else [])) ws.
Proof.
  intros C N R I. destruct (integer_immediate _ _ I) as [h I'].
  destruct (ls_find _ _ _ _ _ _ _ _ _ _ _ N R I') as (m & a & F & G & AO & ST & UP & LO & RS & II).
  destruct (coded_macro _ _ _ _ _ _ _ C F) as (f & ls & -> & GE & AC).
  unfold generate in GE. rewrite G in GE. unfold generate_load_store in GE. rewrite AO, II in GE. cbn [with_int] in GE.
  rewrite ST, UP, LO, RS, lo_spec, case_word, case_top in GE.
  destruct ((0 <=? z) && (z <? 4294967296)) eqn:B; [|discriminate]. cbn [negb] in GE.
  exists f, (reg_text p). rewrite register_text. split; [exact R|]. split; [lia|]. cbv zeta.
  rewrite (u32_small z) in GE by lia.
  assert (T : (if cop || st then rg "r1" else a_rs a) = (if cop || st then rg "r1" else reg_text p)).
  { destruct cop; [reflexivity|]. rewrite RS. reflexivity. }
  rewrite T in GE. destruct ((z <? 0x8000) || (0xFFFF8000 <=? z)); apply ROk_inj in GE; subst ls; exact AC.
Qed.

Lemma ls_not_macro name op code st cop h r off b : In (name, (op, code, st, cop), h) (flat_map ls_halves ls_ops) ->
  find_macro mipsMacros op [r; PSym ","; im off; PSym "("; b; PSym ")"] = None.
Proof.
  intros N. rewrite find_named.
  assert (T : forall m, In m (named op) -> parse_macro_args (k_args m) [r; PSym ","; im off; PSym "("; b; PSym ")"] no_args = None).
  { assert (K : forallb (fun m => String.eqb (k_args m) "s,I" || String.eqb (k_args m) "S,I") (named op) = true).
    { cbv in N. repeat (destruct N as [N|N]; [injection N as <- <- <- <- <- <-; vm_compute; reflexivity|]). destruct N. }
    intros m M. rewrite forallb_forall in K. specialize (K _ M). apply orb_true_iff in K. destruct K as [K|K]; apply String.eqb_eq in K; rewrite K.
    - cbn [parse_macro_args]. destruct (parse_register RfGpr r); reflexivity.
    - cbn [parse_macro_args]. destruct (parse_register RfFloat r); reflexivity. }
  revert T. generalize (named op) as l. induction l as [|m l IH]; intros T; [reflexivity|]. cbn [first_fit].
  rewrite (T m (or_introl eq_refl)). apply IH. intros m' M. apply T. right. exact M.
Qed.
Lemma ls_word name op code st cop h s ignore pc r off b n t x : In (name, (op, code, st, cop), h) (flat_map ls_halves ls_ops) ->
  mips_assemble s ignore pc op [r; PSym ","; im off; PSym "("; b; PSym ")"] = ROk x ->
  register (file cop) r = Some n -> register Gpr b = Some t ->
  exists w, one_word x w /\ access_word w code n t off /\ forall c, access_of w c = Some (code, n, u32 (reg c t + s16 off)).
Proof.
  intros N A R B.
  assert (K : (cop = false /\ In (op, code) mem_names) \/ (cop = true /\ (In (op, code) cop_names \/ In (op, code) cop2_names)) \/
              mips_assemble s ignore pc op [r; PSym ","; im off; PSym "("; b; PSym ")"] = RErr).
  { cbv in N. repeat (destruct N as [N|N]; [injection N as <- <- <- <- <- <-;
      first [ left; split; [reflexivity|apply in_imm; reflexivity]
            | right; left; split; [reflexivity|left; apply in_imm; reflexivity]
            | right; left; split; [reflexivity|right; apply in_imm; reflexivity]
            | right; right; unfold mips_assemble; destruct (ms_arch s); reflexivity ]|]). destruct N. }
  assert (Q : exists w, one_word x w /\ access_word w code n t off).
  { destruct K as [[-> K]|[[-> [K|K]]|K]].
    - exact (line_mem _ _ _ _ _ _ _ _ _ _ _ _ K A R (int_im off) B).
    - exact (line_cop _ _ _ _ _ _ _ _ _ _ _ _ K A R (int_im off) B).
    - exact (line_cop2 _ _ _ _ _ _ _ _ _ _ _ _ K A R (int_im off) B).
    - rewrite A in K. discriminate. }
  destruct Q as (w & OW & AW). exists w. split; [exact OW|]. split; [exact AW|]. intros c. apply (access_word_of _ _ _ _ _ _ AW).
  cbv in N. repeat (destruct N as [N|N]; [injection N as <- <- <- <- <- <-; reflexivity|]). destruct N.
Qed.

(** The names of the specification are those of the lemmas above. *)
Lemma transfer_ops name t : In (name, t) transfers -> exists op, forall up lo suffix,
  In (suffix, (up, lo)) [("", (true, true)); (".u", (true, false)); (".l", (false, true))] ->
  In ((name ++ suffix)%string, (op, t_code t, t_store t, t_cop t), (up, lo)) (flat_map ls_halves ls_ops).
Proof.
  intros N. assert (O : exists op, In (name, (op, t_code t, t_store t, t_cop t)) ls_ops).
  { cbv in N. repeat (destruct N as [N|N]; [injection N as <- <-; eexists; cbv;
      repeat first [left; reflexivity | right]|]). destruct N. }
  destruct O as [op O]. exists op. intros up lo suffix S. apply in_flat_map. eexists. split; [exact O|]. unfold ls_halves. cbn [fst snd].
  cbn [In] in S. destruct S as [S|[S|[S|[]]]]; injection S as <- <- <-.
  - left. f_equal. f_equal. clear. induction name; [reflexivity|]. cbn. f_equal. exact IHname.
  - right. left. reflexivity.
  - right. right. left. reflexivity.
Qed.
Lemma append_nil s : (s ++ "")%string = s.
Proof. induction s; [reflexivity|]. cbn. f_equal. exact IHs. Qed.

Lemma address_low z : 0 <= z < 4294967296 -> (z <? 0x8000) || (0xFFFF8000 <=? z) = true -> u32 (0 + s16 z) = z.
Proof.
  intros B H. apply orb_true_iff in H. rewrite Z.add_0_l. destruct H as [H|H].
  - rewrite s16_id by lia. apply u32_small. exact B.
  - rewrite <- (s16_id (s16 z)) by apply s16_bounds. rewrite li_low_value; rewrite u32_small by exact B; lia.
Qed.
Lemma address_high z : 0 <= z < 4294967296 -> u32 (u32 (hi_of z mod 65536 * 65536) + s16 z) = z.
Proof.
  intros B. rewrite u32_plus_l. destruct (hi_value z) as [k E]. rewrite (u32_cong _ z k) by lia. apply u32_small. exact B.
Qed.
Lemma split_last x w : one_word x w -> exists pre, x_words x = pre ++ [w] /\ (pre = [] \/ pre = [0]).
Proof. intros [->| ->]; [exists []|exists [0]]; auto. Qed.
Lemma run_quiet pre c : pre = [] \/ pre = [0] -> run pre c = Some c.
Proof. intros [-> | ->]; reflexivity. Qed.

Ltac next_access AC N R B AW :=
  let w := fresh "w" in let ws := fresh "ws" in let C := fresh "C" in let A := fresh "A" in let OW := fresh "OW" in let ACC := fresh "ACC" in
  apply all_inv in AC; destruct AC as (w & ws & -> & C & AC); apply coded_plain in C;
  [destruct C as (? & ? & ? & A & ->)|exact (ls_not_macro _ _ _ _ _ _ _ _ _ N)]; unfold lmem in A; cbn [fst snd] in A;
  destruct (ls_word _ _ _ _ _ _ _ _ _ _ _ _ _ _ _ N A R B) as (w & OW & AW & ACC); ended AC.

Lemma ls_access fuel arch pc name op code st cop p q n z ws c : coded fuel arch pc (name, [p; PSym ","; q]) ws ->
  In (name, (op, code, st, cop), (true, true)) (flat_map ls_halves ls_ops) ->
  register (file cop) p = Some n -> integer q = Some z -> reg c 0 = 0 -> (cop || st = false -> n <> 0) ->
  let temp := if cop || st then 1 else n in
  exists pre w c1 b, ws = pre ++ [w] /\ run pre c = Some c1 /\ access_of w c1 = Some (code, n, u32 z) /\
    (forall r, r <> temp -> reg c1 r = reg c r) /\ ram c1 = ram c /\ access_word w code n b (s16 z) /\ u32 (reg c1 b + s16 z) = u32 z.
Proof.
  intros C N R I Z0 NZ. cbv zeta. destruct (ls_lines _ _ _ _ _ _ _ _ _ _ _ _ _ _ _ C N R I) as (f & r & RR & B & AC). clear C R p I q.
  cbv zeta in AC. rewrite (u32_small z) by exact B.
  destruct ((z <? 0x8000) || (0xFFFF8000 <=? z)) eqn:LOW.
  - next_access AC N RR reg_r0 AW. destruct (split_last _ _ OW) as (pre & -> & Q).
    exists pre, w, c, 0. split; [reflexivity|]. split; [exact (run_quiet _ _ Q)|]. rewrite ACC, Z0, (s16_id (s16 z)) by apply s16_bounds.
    rewrite (address_low z B LOW). split; [reflexivity|]. split; [reflexivity|]. split; [reflexivity|]. split; [exact AW|reflexivity].
  - set (temp := if cop || st then 1 else n). cbn [app] in AC.
    assert (T : register Gpr (if cop || st then rg "r1" else r) = Some temp).
    { unfold temp. destruct cop; [reflexivity|]. destruct st; [reflexivity|exact RR]. }
    assert (TZ : temp <> 0) by (unfold temp; destruct (cop || st); [lia|exact (NZ eq_refl)]).
    next AC w0 A0. next_access AC N RR T AW. destruct (split_last _ _ OW) as (pre & -> & Q).
    pose proof (exec_lui _ _ _ _ _ _ _ _ c A0 T (int_im _)) as RL.
    exists (x_words x1 ++ pre), w, (MipsCpu.set c temp (hi_of z mod 65536 * 65536)), temp. split; [apply app_assoc|].
    split; [rewrite run_app, RL; exact (run_quiet _ _ Q)|].
    rewrite ACC, (set_same _ _ _ TZ), (s16_id (s16 z)) by apply s16_bounds. rewrite (address_high z B). split; [reflexivity|].
    split; [intros y Y; apply set_other; exact Y|]. split; [apply set_ram|]. split; [exact AW|reflexivity].
Qed.

(** The effect of an access on the machine. *)
Lemma exec_loaded w code n b off c v : access_word w code n b off -> loaded code c (u32 (reg c b + s16 off)) = Some v ->
  exec w c = Some (set c n v).
Proof.
  intros [E1 E2 E3 E4]. unfold exec, w_op, w_rs, w_rt, w_simm, w_imm. rewrite E1, E2, E3, E4. generalize (u32 (reg c b + s16 off)) as a. intros a L.
  destruct code as [|k|k]; try discriminate L. do 6 (destruct k as [k|k|]; try discriminate L); cbn [loaded] in L; cbv iota beta zeta.
  all: try (injection L as ->; reflexivity).
  all: match type of L with (if ?t then _ else _) = _ => destruct t; [injection L as ->; reflexivity|discriminate L] end.
Qed.
Lemma exec_stored w code n b off c m : access_word w code n b off -> stored code c (u32 (reg c b + s16 off)) (reg c n) = Some m ->
  exec w c = Some m.
Proof.
  intros [E1 E2 E3 E4]. unfold exec, w_op, w_rs, w_rt, w_simm, w_imm. rewrite E1, E2, E3, E4. generalize (u32 (reg c b + s16 off)) as a. intros a L.
  destruct code as [|k|k]; try discriminate L. do 6 (destruct k as [k|k|]; try discriminate L); cbn [stored] in L; cbv iota beta zeta; exact L.
Qed.
Lemma loaded_ram code c c' a : ram c = ram c' -> loaded code c a = loaded code c' a.
Proof.
  intros E. unfold loaded, peek32, peek16, peek. rewrite E. reflexivity.
Qed.
Lemma stored_ram code c c' a v m : ram c = ram c' -> stored code c a v = Some m ->
  exists m', stored code c' a v = Some m' /\ ram m' = ram m /\ reg m' = reg c'.
Proof.
  intros E. assert (P : ram (poke c a v) = ram (poke c' a v)) by (unfold poke; cbn [ram]; rewrite E; reflexivity).
  assert (P16 : ram (poke16 c a v) = ram (poke16 c' a v)) by (unfold poke16, poke; cbn [ram]; rewrite E; reflexivity).
  assert (P32 : ram (poke32 c a v) = ram (poke32 c' a v)) by (unfold poke32, poke16, poke; cbn [ram]; rewrite E; reflexivity).
  intros L. unfold stored in *. destruct code as [|k|k]; try discriminate L. do 6 (destruct k as [k|k|]; try discriminate L).
  - destruct (a mod 4 =? 0); [|discriminate]. injection L as <-. eexists. split; [reflexivity|]. split; [symmetry; exact P32|reflexivity].
  - destruct (a mod 2 =? 0); [|discriminate]. injection L as <-. eexists. split; [reflexivity|]. split; [symmetry; exact P16|reflexivity].
  - injection L as <-. eexists. split; [reflexivity|]. split; [symmetry; exact P|reflexivity].
Qed.

(** ** The theorems about whole lines *)

Lemma access_line depth s ignore pc name t p q n z out c : In (name, t) transfers ->
  mips_line depth s ignore pc name [p; PSym ","; q] = ROk out ->
  transferred t p = Some n -> integer q = Some z -> sane c -> scratch t n <> 0 ->
  exists pre w c1, x_words out = pre ++ [w] /\ run pre c = Some c1 /\ access_of w c1 = Some (t_code t, n, u32 z) /\
    (forall r, r <> scratch t n -> reg c1 r = reg c r) /\ ram c1 = ram c.
Proof.
  intros N A R I (Z0 & _) S0. apply mips_line_coded in A. destruct (transfer_ops _ _ N) as [op O].
  specialize (O true true "" (or_introl eq_refl)). rewrite append_nil in O.
  assert (NZ : t_cop t || t_store t = false -> n <> 0) by (unfold scratch in S0; intros E; rewrite E in S0; exact S0).
  destruct (ls_access _ _ _ _ _ _ _ _ _ _ _ _ _ c A O R I Z0 NZ) as (pre & w & c1 & b & H1 & H2 & H3 & H4 & H5 & _).
  exists pre, w, c1. auto.
Qed.
Lemma load_line depth s ignore pc name code p q n z out c v : In (name, load code) transfers ->
  mips_line depth s ignore pc name [p; PSym ","; q] = ROk out ->
  register Gpr p = Some n -> integer q = Some z -> sane c -> n <> 0 -> loaded code c (u32 z) = Some v ->
  exists c', run (x_words out) c = Some c' /\ reg c' n = u32 v /\ (forall r, r <> n -> reg c' r = reg c r) /\ ram c' = ram c.
Proof.
  intros N A R I (Z0 & _) NZ L. apply mips_line_coded in A. destruct (transfer_ops _ _ N) as [op O].
  specialize (O true true "" (or_introl eq_refl)). rewrite append_nil in O. cbn [t_code t_store t_cop load] in O.
  destruct (ls_access _ _ _ _ _ _ _ _ _ _ _ _ _ c A O R I Z0 (fun _ => NZ)) as (pre & w & c1 & b & H1 & H2 & H3 & H4 & H5 & H6 & H7).
  cbn [orb] in H4. rewrite H1, run_app, H2. cbn [run].
  rewrite (exec_loaded _ _ _ _ _ c1 v H6).
  - eexists. split; [reflexivity|]. split; [apply set_same; exact NZ|]. split; [|rewrite set_ram; exact H5].
    intros r Q. rewrite set_other by exact Q. apply H4. exact Q.
  - rewrite (s16_id (s16 z)) by apply s16_bounds. rewrite H7. rewrite (loaded_ram _ _ c) by exact H5. exact L.
Qed.
Lemma store_line depth s ignore pc name code p q n z out c m : In (name, store code) transfers ->
  mips_line depth s ignore pc name [p; PSym ","; q] = ROk out ->
  register Gpr p = Some n -> integer q = Some z -> sane c -> n <> 1 -> stored code c (u32 z) (reg c n) = Some m ->
  exists c', run (x_words out) c = Some c' /\ ram c' = ram m /\ (forall r, r <> 1 -> reg c' r = reg c r).
Proof.
  intros N A R I (Z0 & _) NZ L. apply mips_line_coded in A. destruct (transfer_ops _ _ N) as [op O].
  specialize (O true true "" (or_introl eq_refl)). rewrite append_nil in O. cbn [t_code t_store t_cop store] in O.
  destruct (ls_access _ _ _ _ _ _ _ _ _ _ _ _ _ c A O R I Z0 ltac:(discriminate)) as (pre & w & c1 & b & H1 & H2 & H3 & H4 & H5 & H6 & H7).
  cbn [orb] in H4. rewrite H1, run_app, H2. cbn [run].
  destruct (stored_ram _ _ c1 _ _ _ (eq_sym H5) L) as (m' & L' & M1 & M2).
  rewrite (exec_stored _ _ _ _ _ c1 m' H6).
  - eexists. split; [reflexivity|]. split; [exact M1|]. intros r Q. rewrite M2. apply H4. exact Q.
  - rewrite (s16_id (s16 z)) by apply s16_bounds. rewrite H7, (H4 n NZ). exact L'.
Qed.
Lemma halves_line depth depth' s s' ignore ignore' pc pc' name t p q p' q' n z out out' c : In (name, t) transfers ->
  mips_line depth s ignore pc (name ++ ".u")%string [p; PSym ","; q] = ROk out ->
  mips_line depth' s' ignore' pc' (name ++ ".l")%string [p'; PSym ","; q'] = ROk out' ->
  transferred t p = Some n -> integer q = Some z -> transferred t p' = Some n -> integer q' = Some z -> scratch t n <> 0 ->
  exists c1, run (x_words out) c = Some c1 /\ (forall r, r <> scratch t n -> reg c1 r = reg c r) /\ ram c1 = ram c /\
  forall c2, sane c2 -> reg c2 (scratch t n) = reg c1 (scratch t n) ->
  exists w, (x_words out' = [w] \/ x_words out' = [0; w]) /\ access_of w c2 = Some (t_code t, n, u32 z).
Proof.
  intros N A A' R I R' I' S0. apply mips_line_coded in A. apply mips_line_coded in A'. destruct (transfer_ops _ _ N) as [op O].
  pose proof (O true false ".u" (or_intror (or_introl eq_refl))) as OU. pose proof (O false true ".l" (or_intror (or_intror (or_introl eq_refl)))) as OL.
  destruct (ls_lines _ _ _ _ _ _ _ _ _ _ _ _ _ _ _ A OU R I) as (f & r & RR & B & AC). cbv zeta in AC.
  destruct (ls_lines _ _ _ _ _ _ _ _ _ _ _ _ _ _ _ A' OL R' I') as (f' & r' & RR' & _ & AC'). cbv zeta in AC'.
  rewrite (u32_small z) by exact B. fold (scratch t n) in *.
  assert (T : forall r, register (file (t_cop t)) r = Some n -> register Gpr (if t_cop t || t_store t then rg "r1" else r) = Some (scratch t n)).
  { intros y Y. unfold scratch. destruct (t_cop t); [reflexivity|]. destruct (t_store t); [reflexivity|exact Y]. }
  destruct ((z <? 0x8000) || (0xFFFF8000 <=? z)) eqn:LOW.
  - next AC w0 A0. ended AC. rewrite (exec_nop _ _ _ _ _ A0). exists c. split; [reflexivity|]. split; [reflexivity|]. split; [reflexivity|].
    intros c2 (Z2 & _) _. next_access AC' OL RR' reg_r0 AW. exists w. split; [exact OW|].
    rewrite ACC, Z2, (s16_id (s16 z)) by apply s16_bounds. rewrite (address_low z B LOW). reflexivity.
  - cbn [app] in AC, AC'. next AC w0 A0. ended AC. rewrite (exec_lui _ _ _ _ _ _ _ _ _ A0 (T _ RR) (int_im _)).
    eexists. split; [reflexivity|]. split; [intros y Y; apply set_other; exact Y|]. split; [apply set_ram|].
    intros c2 _ H2. next_access AC' OL RR' (T _ RR') AW. exists w. split; [exact OW|].
    rewrite ACC, H2, (set_same _ _ _ S0), (s16_id (s16 z)) by apply s16_bounds. rewrite (address_high z B). reflexivity.
Qed.
