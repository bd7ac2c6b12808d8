(** Proofs about the macros for unaligned loads and stores. *)

Require Import ZArith Lia Bool List String Ascii.
Require Import ZifyBool.
Require Import Verif.Ints Verif.IntsLemmas Verif.BitFields Verif.Res Verif.MipsTable Verif.MipsModel Verif.MipsSpec
  Verif.MipsProofs Verif.MipsWordProofs Verif.MipsCpu Verif.MipsDecodeProofs Verif.MipsMacroModel Verif.MipsExecProofs
  Verif.MipsMacroSpec Verif.MipsMacroProofs Verif.MipsAccessProofs.
Import ListNotations.
Local Open Scope string_scope.
Local Open Scope list_scope.
Local Open Scope Z_scope.

Lemma access_not_macro op r off b : forallb (fun m => String.eqb (k_args m) "s,I" || String.eqb (k_args m) "S,I") (named op) = true ->
  find_macro mipsMacros op [r; PSym ","; im off; PSym "("; b; PSym ")"] = None.
Proof.
  rewrite find_named. induction (named op) as [|m l IH]; intros K; [reflexivity|]. cbn [forallb first_fit] in *.
  apply andb_true_iff in K. destruct K as [K1 K2].
  assert (T : parse_macro_args (k_args m) [r; PSym ","; im off; PSym "("; b; PSym ")"] no_args = None).
  { apply orb_true_iff in K1. destruct K1 as [K|K]; apply String.eqb_eq in K; rewrite K.
    - cbn [parse_macro_args]. destruct (parse_register RfGpr r); reflexivity.
    - cbn [parse_macro_args]. destruct (parse_register RfFloat r); reflexivity. }
  rewrite T. apply IH. exact K2.
Qed.
(** The next line is a load or store. *)
Ltac next_mem AC op code R B w AW :=
  let ws := fresh "ws" in let C := fresh "C" in let A := fresh "A" in let OW := fresh "OW" in
  apply all_inv in AC; destruct AC as (w & ws & -> & C & AC); apply coded_plain in C;
  [destruct C as (? & ? & ? & A & ->)|apply access_not_macro; vm_compute; reflexivity]; unfold lmem in A; cbn [fst snd] in A;
  destruct (line_mem op code _ _ _ _ _ _ _ _ _ _ ltac:(apply in_imm; reflexivity) A R (int_im _) B) as (w & OW & AW);
  let Q := fresh "RUN" in pose proof (fun c => run_one _ _ c OW) as Q.

Definition un_kinds : list (string * (generator * Z)) :=
  [("ulh", (GLoadUnaligned, MIPSM_HW)); ("ulhu", (GLoadUnaligned, MIPSM_HWU)); ("ulw", (GLoadUnaligned, MIPSM_W));
   ("ush", (GStoreUnaligned, MIPSM_HW)); ("usw", (GStoreUnaligned, MIPSM_W))].
Lemma un_lines fuel arch pc name g k p q r d b z ws : coded fuel arch pc (name, [p; PSym ","; q; PSym "("; r; PSym ")"]) ws ->
  In (name, (g, k)) un_kinds -> register Gpr p = Some d -> integer q = Some z -> register Gpr r = Some b ->
  exists fuel' ls flags a, generate arch (mkMacro name "d,i(s)" g flags) a = ROk ls /\ all_coded fuel' arch pc ls ws /\
    Z.land flags MIPSM_ACCESSMASK = k /\ a_rd a = reg_text p /\ a_rs a = reg_text r /\ exists h, a_i a = Some (VInt z h).
Proof.
  intros C N D I B. destruct (integer_immediate _ _ I) as [h I'].
  assert (F : exists flags a, find_macro mipsMacros name [p; PSym ","; q; PSym "("; r; PSym ")"] = Some (mkMacro name "d,i(s)" g flags, a) /\
    Z.land flags MIPSM_ACCESSMASK = k /\ a_rd a = reg_text p /\ a_rs a = reg_text r /\ a_i a = Some (VInt z h)).
  { cbn in N; repeat (destruct N as [N|N]; [injection N as <- <- <-; eexists; eexists; split; [fit|repeat split]|]); destruct N. }
  destruct F as (flags & a & F & H1 & H2 & H3 & H4). destruct (coded_macro _ _ _ _ _ _ _ C F) as (f & ls & -> & GE & AC).
  exists f, ls, flags, a. split; [exact GE|]. split; [exact AC|]. split; [exact H1|]. split; [exact H2|]. split; [exact H3|]. exists h. exact H4.
Qed.

Lemma s64_small z : -9223372036854775808 <= z < 9223372036854775808 -> s64 z = z.
Proof.
  intros H. unfold s64. cbv zeta. destruct (z mod 18446744073709551616 <? 9223372036854775808) eqn:C; Z.div_mod_to_equations; lia.
Qed.
Lemma peek_cong c a b : u32 a = u32 b -> peek c a = peek c b.
Proof. unfold peek. intros ->. reflexivity. Qed.
Lemma peek_range c a : sane c -> 0 <= peek c a < 256.
Proof. intros (_ & _ & M). apply M. Qed.

(** ulhu and ulh. *)
Lemma half_lines fuel arch pc name k p q r d b z ws op : coded fuel arch pc (name, [p; PSym ","; q; PSym "("; r; PSym ")"]) ws ->
  In (name, (k, op)) [("ulh", (MIPSM_HW, "lb")); ("ulhu", (MIPSM_HWU, "lbu"))] ->
  register Gpr p = Some d -> integer q = Some z -> register Gpr r = Some b -> -32768 <= z < 32768 ->
  exists fuel' p' r', register Gpr p' = Some d /\ register Gpr r' = Some b /\ z + 1 < 32768 /\
  all_coded fuel' arch pc [lmem op (rg "r1") (z + 1) r'; lmem op p' z r'; ln "sll" [rg "r1"; im 8]; ln "or" [p'; rg "r1"]] ws.
Proof.
  intros C N D I B RZ.
  assert (N' : In (name, (GLoadUnaligned, k)) un_kinds /\ ((k =? MIPSM_HW) || (k =? MIPSM_HWU) = true) /\ op = (if k =? MIPSM_HWU then "lbu" else "lb")).
  { cbn in N. destruct N as [N|[N|[]]]; injection N as <- <- <-; cbn; auto 10. }
  destruct N' as (N1 & N2 & N3).
  destruct (un_lines _ _ _ _ _ _ _ _ _ _ _ _ _ C N1 D I B) as (f & ls & flags & a & GE & AC & FL & A1 & A2 & h & A3).
  cbn [generate k_gen k_flags] in GE. unfold generate_load_unaligned in GE. rewrite FL, N2, <- N3, A1, A2, A3 in GE. cbn [with_int] in GE.
  rewrite s64_small in GE by lia. destruct ((z <? 0x8000) && (0x8000 <=? z + 1)) eqn:T; [discriminate|]. apply ROk_inj in GE. subst ls.
  exists f, (reg_text p), (reg_text r). rewrite !register_text. split; [exact D|]. split; [exact B|]. split; [lia|exact AC].
Qed.
Lemma half_run fuel arch pc name k p q r d b z ws op code f c : coded fuel arch pc (name, [p; PSym ","; q; PSym "("; r; PSym ")"]) ws ->
  In (name, (k, op)) [("ulh", (MIPSM_HW, "lb")); ("ulhu", (MIPSM_HWU, "lbu"))] -> In (op, code) [("lb", 0x20); ("lbu", 0x24)] ->
  (forall c a, loaded code c a = Some (f (peek c a))) ->
  register Gpr p = Some d -> integer q = Some z -> register Gpr r = Some b -> -32768 <= z < 32768 ->
  sane c -> d <> 0 -> d <> 1 -> b <> 1 ->
  exists c', run ws c = Some c' /\
    reg c' d = u32 (Z.lor (u32 (f (peek c (reg c b + z)))) (u32 (u32 (f (peek c (reg c b + z + 1))) * 256))) /\
    (forall x, x <> d -> x <> 1 -> reg c' x = reg c x) /\ ram c' = ram c.
Proof.
  intros C N NO F D I B RZ SA D0 D1 B1.
  destruct (half_lines _ _ _ _ _ _ _ _ _ _ _ _ _ C N D I B RZ) as (fu & p' & r' & D' & B' & Z1 & AC). clear C.
  assert (L : forall c w x, access_word w code x b (z + 1) -> exec w c = Some (set c x (f (peek c (reg c b + z + 1))))).
  { intros c0 w x AW. erewrite exec_loaded; [reflexivity|exact AW|]. rewrite F, (s16_id (z + 1)) by lia. do 2 f_equal. apply peek_cong.
    rewrite u32_u32, Z.add_assoc. reflexivity. }
  assert (L' : forall c w x, access_word w code x b z -> exec w c = Some (set c x (f (peek c (reg c b + z))))).
  { intros c0 w x AW. erewrite exec_loaded; [reflexivity|exact AW|]. rewrite F, (s16_id z) by lia. do 2 f_equal. apply peek_cong. apply u32_u32. }
  assert (NM : In (op, code) mem_names /\ forallb (fun m => String.eqb (k_args m) "s,I" || String.eqb (k_args m) "S,I") (named op) = true).
  { cbn in NO. destruct NO as [NO|[NO|[]]]; injection NO as <- <-; (split; [apply in_imm; reflexivity|vm_compute; reflexivity]). }
  destruct NM as [NM NOM].
  assert (STEP : forall pc rr off w, coded fu arch pc (lmem op rr off r') w -> forall x, register Gpr rr = Some x ->
    exists w', (forall c, run w c = exec w' c) /\ access_word w' code x b off).
  { intros pc0 rr off w C x X. apply coded_plain in C; [|exact (access_not_macro _ _ _ _ NOM)].
    destruct C as (? & ? & x0 & A & ->). unfold lmem in A. cbn [fst snd] in A.
    destruct (line_mem op code _ _ _ _ _ _ _ _ _ _ NM A X (int_im _) B') as (w & OW & AW). exists w. split; [|exact AW].
    intros c0. exact (run_one _ _ c0 OW). }
  apply all_inv in AC. destruct AC as (w1 & ws1 & -> & C1 & AC). apply all_inv in AC. destruct AC as (w2 & ws2 & -> & C2 & AC).
  next AC w3 A3. next AC w4 A4. ended AC.
  destruct (STEP _ _ _ _ C1 1 reg_r1) as (w1' & R1 & AW1). destruct (STEP _ _ _ _ C2 d D') as (w2' & R2 & AW2).
  rewrite run_app, R1, (L _ _ _ AW1), run_app, R2, (L' _ _ _ AW2), run_app.
  rewrite (exec_shift2 "sll" 0 _ _ _ _ _ _ _ _ _ ltac:(apply in_imm; reflexivity) A3 reg_r1 (int_im 8)). change (8 mod 32) with 8. cbn [shift].
  rewrite (exec_alu2 "or" 0x25 _ _ _ _ _ _ _ _ _ ltac:(apply in_imm; reflexivity) A4 D' reg_r1). cbn [alu]. change (2 ^ 8) with 256.
  set (hi := f (peek c (reg c b + z + 1))). set (c1 := MipsCpu.set c 1 hi).
  assert (E1 : reg c1 b = reg c b) by (apply set_other; exact B1). assert (M1 : ram c1 = ram c) by apply set_ram.
  rewrite E1. replace (peek c1 (reg c b + z)) with (peek c (reg c b + z)) by (unfold peek; rewrite M1; reflexivity).
  set (lo := f (peek c (reg c b + z))). set (c2 := MipsCpu.set c1 d lo).
  set (c3 := MipsCpu.set c2 1 (reg c2 1 * 256)).
  assert (V1 : reg c1 1 = u32 hi) by (apply set_same; lia).
  assert (V2 : reg c2 1 = u32 hi) by (unfold c2; rewrite set_other by lia; exact V1).
  assert (V3 : reg c3 1 = u32 (u32 hi * 256)) by (unfold c3; rewrite set_same, V2 by lia; reflexivity).
  assert (V4 : reg c3 d = u32 lo) by (unfold c3; rewrite set_other by lia; apply set_same; exact D0).
  rewrite V3, V4. eexists. split; [reflexivity|]. split; [apply set_same; exact D0|]. split.
  - intros y X X1. rewrite set_other by exact X. unfold c3. rewrite set_other by exact X1. unfold c2. rewrite set_other by exact X.
    unfold c1. apply set_other. exact X1.
  - rewrite set_ram. unfold c3. rewrite set_ram. unfold c2. rewrite set_ram. exact M1.
Qed.
Lemma ulhu_run fuel arch pc p q r d b z ws c : coded fuel arch pc ("ulhu", [p; PSym ","; q; PSym "("; r; PSym ")"]) ws ->
  register Gpr p = Some d -> integer q = Some z -> register Gpr r = Some b -> -32768 <= z < 32768 ->
  sane c -> d <> 0 -> d <> 1 -> b <> 1 ->
  exists c', run ws c = Some c' /\ reg c' d = bytes_at 2 c (reg c b + z) /\
    (forall x, x <> d -> x <> 1 -> reg c' x = reg c x) /\ ram c' = ram c.
Proof.
  intros C D I B RZ SA D0 D1 B1.
  destruct (half_run _ _ _ _ _ _ _ _ _ _ _ _ "lbu" 0x24 (fun x => x) c C (or_intror (or_introl eq_refl)) (or_intror (or_introl eq_refl))
    (fun _ _ => eq_refl) D I B RZ SA D0 D1 B1) as (c' & R & V & O & M).
  exists c'. split; [exact R|]. split; [|split; assumption]. rewrite V. cbn [bytes_at].
  pose proof (peek_range c (reg c b + z) SA) as P1. pose proof (peek_range c (reg c b + z + 1) SA) as P2.
  rewrite (u32_small (peek c (reg c b + z))), (u32_small (peek c (reg c b + z + 1))), (u32_small (_ * 256)) by lia.
  change 256 with (2 ^ 8). rewrite lor_small_mul_pow2 by lia. rewrite u32_small by lia. lia.
Qed.
Lemma ulh_run fuel arch pc p q r d b z ws c : coded fuel arch pc ("ulh", [p; PSym ","; q; PSym "("; r; PSym ")"]) ws ->
  register Gpr p = Some d -> integer q = Some z -> register Gpr r = Some b -> -32768 <= z < 32768 ->
  sane c -> d <> 0 -> d <> 1 -> b <> 1 -> peek c (reg c b + z) < 128 ->
  exists c', run ws c = Some c' /\ reg c' d = u32 (s16 (bytes_at 2 c (reg c b + z))) /\
    (forall x, x <> d -> x <> 1 -> reg c' x = reg c x) /\ ram c' = ram c.
Proof.
  intros C D I B RZ SA D0 D1 B1 LOW.
  destruct (half_run _ _ _ _ _ _ _ _ _ _ _ _ "lb" 0x20 s8 c C (or_introl eq_refl) (or_introl eq_refl)
    (fun _ _ => eq_refl) D I B RZ SA D0 D1 B1) as (c' & R & V & O & M).
  exists c'. split; [exact R|]. split; [|split; assumption]. rewrite V. cbn [bytes_at].
  pose proof (peek_range c (reg c b + z) SA) as P1. pose proof (peek_range c (reg c b + z + 1) SA) as P2.
  set (lo := peek c (reg c b + z)) in *. set (hi := peek c (reg c b + z + 1)) in *.
  assert (E : s8 lo = lo) by (unfold s8; cbv zeta; rewrite Z.mod_small by lia; destruct (lo <? 128) eqn:T; lia).
  rewrite E, (u32_small lo) by lia.
  assert (H : exists v, 0 <= v < 16777216 /\ u32 (u32 (s8 hi) * 256) = v * 2 ^ 8 /\ u32 (v * 256) = u32 (s8 hi * 256)).
  { exists (u32 (s8 hi) mod 16777216). pose proof (u32_bounds (s8 hi)). unfold u32. change (2 ^ 8) with 256. split; [apply Z.mod_pos_bound; lia|].
    split; Z.div_mod_to_equations; lia. }
  destruct H as (v & VR & V1 & V2). rewrite V1, lor_small_mul_pow2 by lia. change (2 ^ 8) with 256.
  assert (X : u32 (lo + v * 256) = u32 (lo + s8 hi * 256)).
  { unfold u32 in *. rewrite <- Z.add_mod_idemp_r, V2, Z.add_mod_idemp_r by lia. reflexivity. }
  rewrite X. f_equal. rewrite s16_spec. unfold s8. cbv zeta. rewrite (Z.mod_small hi) by lia. destruct (hi <? 128) eqn:T.
  - rewrite Z.mod_small; lia.
  - replace (lo + 256 * (hi + 256 * 0) + 32768) with (lo + 256 * hi - 32768 + 1 * 65536) by lia. rewrite Z_mod_plus_full, Z.mod_small; lia.
Qed.

(** ulw and usw. *)
Lemma word_lines fuel arch pc name g p q r d b z ws op : coded fuel arch pc (name, [p; PSym ","; q; PSym "("; r; PSym ")"]) ws ->
  In (name, (g, op)) [("ulw", (GLoadUnaligned, "lw")); ("usw", (GStoreUnaligned, "sw"))] ->
  register Gpr p = Some d -> integer q = Some z -> register Gpr r = Some b -> -32768 <= z < 32768 ->
  exists fuel' p' r', register Gpr p' = Some d /\ register Gpr r' = Some b /\ z + 3 < 32768 /\ d <> b /\
  all_coded fuel' arch pc [lmem (op ++ "l")%string p' (z + 3) r'; lmem (op ++ "r")%string p' z r'] ws.
Proof.
  intros C N D I B RZ. assert (N' : In (name, (g, MIPSM_W)) un_kinds) by (cbn in N |- *; destruct N as [N|[N|[]]]; injection N as <- <- <-; auto 10).
  destruct (un_lines _ _ _ _ _ _ _ _ _ _ _ _ _ C N' D I B) as (f & ls & flags & a & GE & AC & FL & A1 & A2 & h & A3).
  assert (SR : same_register (a_rs a) (a_rd a) = (b =? d)).
  { unfold same_register. rewrite A1, A2, !register_gpr, !register_text, B, D. reflexivity. }
  cbn in N. destruct N as [N|[N|[]]]; injection N as <- <- <-; cbn [generate k_gen k_flags] in GE;
    unfold generate_load_unaligned, generate_store_unaligned in GE; rewrite FL, SR, A1, A2, A3 in GE; cbv beta iota zeta delta [MIPSM_W MIPSM_HW MIPSM_HWU MIPSM_DW] in GE;
    cbn [Z.eqb Pos.eqb orb] in GE; (destruct (Z.eqb_spec b d) as [|NE]; [discriminate|]); cbn [with_int] in GE;
    rewrite !s64_small in GE by (rewrite ?s64_small; lia);
    (destruct ((z <? 0x8000) && (0x8000 <=? z + 4 - 1)) eqn:T; [discriminate|]); apply ROk_inj in GE; subst ls;
    exists f, (reg_text p), (reg_text r); rewrite !register_text; replace (z + 4 - 1) with (z + 3) in * by lia;
    (split; [exact D|]); (split; [exact B|]); (split; [lia|]); (split; [congruence|exact AC]).
Qed.
Lemma quarters a : 0 <= a -> exists m, 0 <= m /\ (a = 4 * m \/ a = 4 * m + 1 \/ a = 4 * m + 2 \/ a = 4 * m + 3).
Proof. intros H. exists (a / 4). Z.div_mod_to_equations. lia. Qed.
Lemma mod4 m k : 0 <= k < 4 -> (4 * m + k) mod 4 = k.
Proof. intros H. rewrite Z.add_comm, Z.mul_comm, Z_mod_plus_full, Z.mod_small; [reflexivity|exact H]. Qed.
Lemma u32_mod4 x : u32 x mod 4 = x mod 4.
Proof. unfold u32. Z.div_mod_to_equations. lia. Qed.
(** Left part at [x + 3], then right part at [x]. *)
Lemma join_parts c x old : sane c -> 0 <= old < 4294967296 ->
  u32 (word_right c (u32 x) (u32 (word_left c (u32 (x + 3)) old))) = bytes_at 4 c x.
Proof.
  intros SA OLD. unfold word_left, word_right. cbv zeta. rewrite !u32_mod4. unfold peek32, peek16. cbn [bytes_at].
  assert (P : forall k i, peek c (u32 x - k + i) = peek c (x - k + i)).
  { intros k i. apply peek_cong. unfold u32. rewrite <- Z.add_opp_r, <- !Z.add_assoc, Z.add_mod_idemp_l by lia. f_equal. lia. }
  assert (P' : forall k i, peek c (u32 (x + 3) - k + i) = peek c (x + 3 - k + i)).
  { intros k i. apply peek_cong. unfold u32. rewrite <- Z.add_opp_r, <- !Z.add_assoc, Z.add_mod_idemp_l by lia. f_equal. lia. }
  assert (Q : forall y z, y = z -> peek c y = peek c z) by (intros y z ->; reflexivity).
  assert (RG : forall y, 0 <= peek c y < 256) by (intros y; apply peek_range; exact SA).
  assert (X : x mod 4 = 0 \/ x mod 4 = 1 \/ x mod 4 = 2 \/ x mod 4 = 3) by (pose proof (Z.mod_pos_bound x 4 ltac:(lia)); lia).
  assert (L0 : forall k, peek c (u32 (x + 3) - k) = peek c (x + (3 - k))) by (intros k; rewrite <- (Z.add_0_r (u32 (x + 3) - k)), P'; apply Q; lia).
  assert (L1 : forall k, peek c (u32 (x + 3) - k + 1) = peek c (x + (4 - k))) by (intros k; rewrite P'; apply Q; lia).
  assert (L2 : forall k, peek c (u32 (x + 3) - k + 2) = peek c (x + (5 - k))) by (intros k; rewrite P'; apply Q; lia).
  assert (L3 : forall k, peek c (u32 (x + 3) - k + 2 + 1) = peek c (x + (6 - k))) by (intros k; rewrite <- Z.add_assoc, P'; apply Q; lia).
  assert (R0 : forall k, peek c (u32 x - k) = peek c (x + (0 - k))) by (intros k; rewrite <- (Z.add_0_r (u32 x - k)), P; apply Q; lia).
  assert (R1 : forall k, peek c (u32 x - k + 1) = peek c (x + (1 - k))) by (intros k; rewrite P; apply Q; lia).
  assert (R2 : forall k, peek c (u32 x - k + 2) = peek c (x + (2 - k))) by (intros k; rewrite P; apply Q; lia).
  assert (R3 : forall k, peek c (u32 x - k + 2 + 1) = peek c (x + (3 - k))) by (intros k; rewrite <- Z.add_assoc, P; apply Q; lia).
  rewrite L0, L1, L2, L3, R0, R1, R2, R3.
  rewrite (Q x (x + 0)) by lia. rewrite (Q (x + 1 + 1) (x + 2)), (Q (x + 1 + 1 + 1) (x + 3)) by lia.
  clear P P' L0 L1 L2 L3 R0 R1 R2 R3 Q SA.
  assert (Y : forall j k, x mod 4 = j -> (j + 3) mod 4 = k -> (x + 3) mod 4 = k) by (intros j k E F; rewrite <- F, <- E; symmetry; apply Z.add_mod_idemp_l; lia).
  destruct X as [X|[X|[X|X]]]; rewrite (Y _ _ X eq_refl), X; clear Y X;
    repeat match goal with |- context [2 ^ ?e] => let v := eval compute in (2 ^ e) in change (2 ^ e) with v end;
    repeat match goal with |- context [x + (?a - ?b)] => let v := eval compute in (a - b) in change (a - b) with v end;
    repeat match goal with |- context [peek c ?y] => let b := fresh "b" in pose proof (RG y); set (b := peek c y) in *; clearbody b end;
    clear RG; unfold u32; Z.div_mod_to_equations; lia.
Qed.
Lemma store_parts c x v y : 0 <= y < 4294967296 ->
  ram (store_right (store_left c (u32 (x + 3)) v) (u32 x) v) y = bytes_put 4 (ram c) x v y.
Proof.
  intros YR. unfold store_right, store_left, bytes_put. cbv zeta. rewrite !u32_mod4.
  assert (E : forall a i, 0 <= i < 4 -> u32 a = u32 (x + i) -> (y =? u32 a) = (u32 (y - x) =? i)).
  { intros a i IR ->. apply Bool.eq_iff_eq_true. rewrite !Z.eqb_eq. unfold u32. Z.div_mod_to_equations. lia. }
  assert (X : x mod 4 = 0 \/ x mod 4 = 1 \/ x mod 4 = 2 \/ x mod 4 = 3) by (pose proof (Z.mod_pos_bound x 4 ltac:(lia)); lia).
  assert (Y : forall j k, x mod 4 = j -> (j + 3) mod 4 = k -> (x + 3) mod 4 = k) by (intros j k F G; rewrite <- G, <- F; symmetry; apply Z.add_mod_idemp_l; lia).
  pose proof (u32_bounds (y - x)) as KB. unfold bits, u8.
  destruct X as [X|[X|[X|X]]]; rewrite (Y _ _ X eq_refl), X; clear Y X;
    repeat match goal with |- context [Z.to_nat ?e] => let n := eval compute in (Z.to_nat e) in change (Z.to_nat e) with n end;
    cbn [poke_n]; unfold poke; cbn [ram reg];
    repeat match goal with |- context [y =? u32 ?a] =>
      let solve_addr := unfold u32; Z.div_mod_to_equations; lia in
      first [ rewrite (E a 0) by (lia || solve_addr) | rewrite (E a 1) by (lia || solve_addr)
            | rewrite (E a 2) by (lia || solve_addr) | rewrite (E a 3) by (lia || solve_addr) ] end.
  all: clear E; set (k := u32 (y - x)) in *; clearbody k.
  all: assert (K : k = 0 \/ k = 1 \/ k = 2 \/ k = 3 \/ 4 <= k) by lia.
  all: destruct K as [->|[->|[->|[->|K]]]].
  all: repeat match goal with |- context [2 ^ ?e] => let z := eval compute in (2 ^ e) in change (2 ^ e) with z end.
  all: cbn [Z.eqb Pos.eqb Z.ltb Z.compare Pos.compare Pos.compare_cont]; rewrite ?Z.div_div, ?Z.div_1_r by lia; try reflexivity.
  all: repeat match goal with |- context [?a =? ?b] => destruct (Z.eqb_spec a b); [lia|] end.
  all: destruct (Z.ltb_spec k 4); [lia|reflexivity].
Qed.

Lemma exec_left w t b off c : access_word w 0x22 t b off -> exec w c = Some (set c t (word_left c (u32 (reg c b + s16 off)) (reg c t))).
Proof. intros [E1 E2 E3 E4]. unfold exec, w_op, w_rs, w_rt, w_simm, w_imm. rewrite E1, E2, E3, E4. reflexivity. Qed.
Lemma exec_right w t b off c : access_word w 0x26 t b off -> exec w c = Some (set c t (word_right c (u32 (reg c b + s16 off)) (reg c t))).
Proof. intros [E1 E2 E3 E4]. unfold exec, w_op, w_rs, w_rt, w_simm, w_imm. rewrite E1, E2, E3, E4. reflexivity. Qed.
Lemma exec_store_left w t b off c : access_word w 0x2A t b off -> exec w c = Some (store_left c (u32 (reg c b + s16 off)) (reg c t)).
Proof. intros [E1 E2 E3 E4]. unfold exec, w_op, w_rs, w_rt, w_simm, w_imm. rewrite E1, E2, E3, E4. reflexivity. Qed.
Lemma exec_store_right w t b off c : access_word w 0x2E t b off -> exec w c = Some (store_right c (u32 (reg c b + s16 off)) (reg c t)).
Proof. intros [E1 E2 E3 E4]. unfold exec, w_op, w_rs, w_rt, w_simm, w_imm. rewrite E1, E2, E3, E4. reflexivity. Qed.
Lemma exec_byte w t b off c : access_word w 0x28 t b off -> exec w c = Some (poke c (u32 (reg c b + s16 off)) (reg c t)).
Proof. intros [E1 E2 E3 E4]. unfold exec, w_op, w_rs, w_rt, w_simm, w_imm. rewrite E1, E2, E3, E4. reflexivity. Qed.
Lemma poke_n_reg n : forall c a v, reg (poke_n n c a v) = reg c.
Proof. induction n as [|n IH]; intros c a v; cbn [poke_n]; [reflexivity|]. rewrite IH. reflexivity. Qed.

Lemma ulw_run fuel arch pc p q r d b z ws c : coded fuel arch pc ("ulw", [p; PSym ","; q; PSym "("; r; PSym ")"]) ws ->
  register Gpr p = Some d -> integer q = Some z -> register Gpr r = Some b -> -32768 <= z < 32768 -> sane c -> d <> 0 ->
  exists c', run ws c = Some c' /\ reg c' d = bytes_at 4 c (reg c b + z) /\ (forall x, x <> d -> reg c' x = reg c x) /\ ram c' = ram c.
Proof.
  intros C D I B RZ SA D0. destruct (word_lines _ _ _ _ _ _ _ _ _ _ _ _ _ C (or_introl eq_refl) D I B RZ) as (f & p' & r' & D' & B' & Z3 & DB & AC).
  cbn [append] in AC. next_mem AC "lwl" 0x22 D' B' w1 AW1. next_mem AC "lwr" 0x26 D' B' w2 AW2. ended AC.
  rewrite run_app, RUN, (exec_left _ _ _ _ _ AW1), RUN0, (exec_right _ _ _ _ _ AW2).
  rewrite (s16_id z), (s16_id (z + 3)) by lia. eexists. split; [reflexivity|].
  split; [|split; [intros y Y; rewrite !set_other by exact Y; reflexivity|rewrite !set_ram; reflexivity]].
  rewrite !(set_same _ d) by exact D0. rewrite (set_other _ d _ b) by congruence.
  replace (word_right (MipsCpu.set c d (word_left c (u32 (reg c b + (z + 3))) (reg c d)))) with (word_right c)
    by (unfold word_right, peek32, peek16, peek; rewrite set_ram; reflexivity).
  rewrite Z.add_assoc. apply join_parts; [exact SA|]. destruct SA as (_ & RB & _). exact (RB d).
Qed.
Lemma usw_run fuel arch pc p q r d b z ws c : coded fuel arch pc ("usw", [p; PSym ","; q; PSym "("; r; PSym ")"]) ws ->
  register Gpr p = Some d -> integer q = Some z -> register Gpr r = Some b -> -32768 <= z < 32768 ->
  exists c', run ws c = Some c' /\ reg c' = reg c /\
    forall x, 0 <= x < 4294967296 -> ram c' x = bytes_put 4 (ram c) (reg c b + z) (reg c d) x.
Proof.
  intros C D I B RZ. destruct (word_lines _ _ _ _ _ _ _ _ _ _ _ _ _ C (or_intror (or_introl eq_refl)) D I B RZ) as (f & p' & r' & D' & B' & Z3 & DB & AC).
  cbn [append] in AC. next_mem AC "swl" 0x2A D' B' w1 AW1. next_mem AC "swr" 0x2E D' B' w2 AW2. ended AC.
  rewrite run_app, RUN, (exec_store_left _ _ _ _ _ AW1), RUN0, (exec_store_right _ _ _ _ _ AW2).
  rewrite (s16_id z), (s16_id (z + 3)) by lia. eexists. split; [reflexivity|].
  assert (RG : forall v a, reg (store_left c a v) = reg c) by (intros v a; apply poke_n_reg).
  split; [unfold store_right at 1; rewrite poke_n_reg; apply RG|]. intros y Y. rewrite !RG, Z.add_assoc. apply store_parts. exact Y.
Qed.
Lemma ush_run fuel arch pc p q r d b z ws c : coded fuel arch pc ("ush", [p; PSym ","; q; PSym "("; r; PSym ")"]) ws ->
  register Gpr p = Some d -> integer q = Some z -> register Gpr r = Some b -> -32768 <= z < 32768 -> b <> 1 ->
  exists c', run ws c = Some c' /\ (forall x, x <> 1 -> reg c' x = reg c x) /\
    forall x, 0 <= x < 4294967296 -> ram c' x = bytes_put 2 (ram c) (reg c b + z) (reg c d) x.
Proof.
  intros C D I B RZ B1. assert (N : In ("ush", (GStoreUnaligned, MIPSM_HW)) un_kinds) by (cbn; auto 10).
  destruct (un_lines _ _ _ _ _ _ _ _ _ _ _ _ _ C N D I B) as (f & ls & flags & a & GE & AC & FL & A1 & A2 & h & A3).
  cbn [generate k_gen k_flags] in GE. unfold generate_store_unaligned in GE. rewrite FL, A1, A2, A3, Z.eqb_refl in GE. cbn [with_int] in GE.
  rewrite s64_small in GE by lia. destruct ((z <? 0x8000) && (0x8000 <=? z + 1)) eqn:T; [discriminate|]. apply ROk_inj in GE. subst ls.
  rewrite <- register_text in D, B.
  next_mem AC "sb" 0x28 D B w1 AW1. next AC w2 A2'. next_mem AC "sb" 0x28 reg_r1 B w3 AW3. ended AC.
  rewrite run_app, RUN, (exec_byte _ _ _ _ _ AW1), run_app.
  rewrite (exec_shift "srl" 2 _ _ _ _ _ _ _ _ _ _ _ ltac:(apply in_imm; reflexivity) A2' reg_r1 D (int_im 8)). change (8 mod 32) with 8. cbn [shift].
  rewrite RUN0, (exec_byte _ _ _ _ _ AW3). rewrite (s16_id z), (s16_id (z + 1)) by lia. change (2 ^ 8) with 256.
  eexists. split; [reflexivity|]. rewrite set_same, (set_other _ 1 _ b) by (lia || congruence). split.
  - intros y Y. cbn [reg poke]. rewrite set_other by exact Y. reflexivity.
  - intros y Y. unfold poke at 1. cbn [ram]. rewrite set_ram. unfold poke. cbn [ram reg]. rewrite !u32_u32. unfold bytes_put. cbv zeta.
    assert (E0 : (y =? u32 (reg c b + z)) = (u32 (y - (reg c b + z)) =? 0)).
    { apply Bool.eq_iff_eq_true. rewrite !Z.eqb_eq. unfold u32. Z.div_mod_to_equations. lia. }
    assert (E1 : (y =? u32 (reg c b + (z + 1))) = (u32 (y - (reg c b + z)) =? 1)).
    { apply Bool.eq_iff_eq_true. rewrite !Z.eqb_eq. unfold u32. Z.div_mod_to_equations. lia. }
    rewrite E0, E1. pose proof (u32_bounds (y - (reg c b + z))) as KB. set (k := u32 (y - (reg c b + z))) in *. clearbody k.
    unfold bits, u8. clear E0 E1. destruct (Z.eqb_spec k 1) as [K1|K1]; [|destruct (Z.eqb_spec k 0) as [K0|K0]].
    + rewrite K1. cbn [Z.ltb Z.compare Pos.compare Pos.compare_cont]. change (2 ^ (8 * 1)) with 256. change (2 ^ 8) with 256. unfold u32. Z.div_mod_to_equations. lia.
    + rewrite K0. cbn [Z.ltb Z.compare]. change (2 ^ (8 * 0)) with 1. rewrite Z.div_1_r. reflexivity.
    + destruct (Z.ltb_spec k 2); [lia|reflexivity].
Qed.
