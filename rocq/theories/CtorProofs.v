(** Proofs about the function for the constructors: what the lines of the template assemble to, and how the machine runs
    through them. *)

Require Import ZArith Bool List String Ascii Lia ZifyBool.
Require Import Verif.Ints Verif.IntsLemmas Verif.Res Verif.MipsTable Verif.MipsModel Verif.MipsSpec Verif.MipsCpu Verif.MipsMacroModel.
Require Import Verif.MipsDecodeProofs Verif.MipsExecProofs Verif.MipsMacroProofs.
Require Import Verif.MipsMacroProps.
Require Import Verif.CtorModel Verif.CtorSpec.
Import ListNotations.
Local Open Scope string_scope.
Local Open Scope list_scope.
Local Open Scope Z_scope.

(** ** Lines *)

Lemma bind_ok {A B} (r : res A) (f : A -> res B) b : rbind r f = ROk b -> exists a, r = ROk a /\ f a = ROk b.
Proof. destruct r; cbn [rbind]; intros H; try discriminate. eauto. Qed.
Lemma ok_eq {A} (a b : A) : ROk a = ROk b -> a = b.
Proof. intros H. injection H as H. exact H. Qed.

Lemma expand_plain fuel arch l : find_macro mipsMacros (fst l) (snd l) = None -> expand fuel arch l = ROk [l].
Proof. intros N. destruct fuel; cbn [expand]; rewrite N; reflexivity. Qed.
Lemma assemble_one s ignore pc l out : assemble_lines s ignore pc [l] = ROk out ->
  exists o, mips_assemble s ignore pc (fst l) (snd l) = ROk o /\ x_words out = x_words o /\ x_state out = x_state o.
Proof.
  cbn [assemble_lines]. intros H. apply bind_ok in H. destruct H as (o & A & H). cbn [rbind] in H. apply ok_eq in H. subst out.
  exists o. cbn [x_words x_state]. rewrite app_nil_r. auto.
Qed.
Lemma plain_line depth s ignore pc name ps out : mips_line depth s ignore pc name ps = ROk out ->
  find_macro mipsMacros name ps = None ->
  exists o, mips_assemble s ignore pc name ps = ROk o /\ x_words out = x_words o /\ x_state out = x_state o.
Proof.
  unfold mips_line. intros H F. rewrite (expand_plain depth (ms_arch s) (name, ps) F) in H. exact (assemble_one _ _ _ _ _ H).
Qed.

(** No load is pending. *)
Definition settled (s : mips_state) : Prop := hasLoadDelay (ms_arch s) && ms_delay s = false.
Lemma assemble_parts s ignore pc name ps out o i : mips_assemble s ignore pc name ps = ROk out ->
  mips_parse (ms_arch s) name ps = Some (o, i) ->
  exists v, mips_validate s ignore pc o i = ROk v /\ mips_encode o i v = ROk (x_words out) /\ x_state out = v_state v.
Proof.
  unfold mips_assemble. intros A P. rewrite P in A. apply bind_ok in A. destruct A as (v & V & A). apply bind_ok in A.
  destruct A as (ws & W & A). apply ok_eq in A. subst out. exists v. auto.
Qed.
Lemma validate_state s ignore pc o i v : mips_validate s ignore pc o i = ROk v ->
  ms_arch (v_state v) = ms_arch s /\ (settled s -> v_nop v = false) /\ (mhas o MO_DELAYRT = false -> settled (v_state v)) /\ Z.rem pc 4 = 0 /\
  validate_primary o pc i = ROk (v_pval v) /\ validate_secondary i (v_pval v) = ROk (v_sval v).
Proof.
  unfold mips_validate. destruct (Z.eqb_spec (Z.rem pc 4) 0) as [PC|]; [|discriminate]. cbn [negb]. intros H.
  apply bind_ok in H. destruct H as (p & P & H). apply bind_ok in H. destruct H as (q & Q & H).
  match type of H with (if ?b then _ else _) = _ => destruct b; [discriminate|] end. apply ok_eq in H. subst v.
  cbn [v_pval v_sval v_nop v_state ms_arch]. unfold settled. cbn [ms_arch ms_delay]. split; [reflexivity|].
  split; [intros ->; rewrite !andb_false_l, andb_false_r; reflexivity|]. split; [|auto].
  intros ->. destruct (hasLoadDelay (ms_arch s)); reflexivity.
Qed.
Lemma primary_anywhere o pc i : mhas o MO_IPCR = false -> validate_primary o pc i = validate_primary o 0 i.
Proof.
  intros H. unfold validate_primary. assert (A : forall v, adjust_primary o pc v = adjust_primary o 0 v).
  { intros v. unfold adjust_primary. rewrite H. reflexivity. }
  destruct (i_ptype i); [reflexivity|..];
  (match goal with |- rbind ?x _ = _ => destruct x; cbn [rbind]; [rewrite A; reflexivity|reflexivity|reflexivity] end).
Qed.

(** The word of a line that has no operand relative to its position, and whether it is a load. *)
Definition fixed_word (a : mips_arch) (name : string) (ps : list piece) : option (Z * bool) :=
  match mips_parse a name ps with
  | Some (o, i) =>
    if mhas o MO_IPCR then None
    else match (do p <- validate_primary o 0 i; do q <- validate_secondary i p;
                mips_encode o i (mkValid p q false false (mkMips a false false 0 false))) with
         | ROk [w] => Some (w, mhas o MO_DELAYRT)
         | _ => None
         end
  | None => None
  end.
Definition all_archs : list mips_arch := [PSX; N64; PS2; PSP; RSP].
Definition fixed_on (name : string) (ps : list piece) (w : Z) (ld : bool) (a : mips_arch) : bool :=
  match fixed_word a name ps with
  | Some (w', ld') => (w' =? w) && Bool.eqb ld' ld
  | None => match mips_parse a name ps with None => true | Some _ => false end
  end.
Definition no_macro (name : string) (ps : list piece) : bool := match find_macro mipsMacros name ps with Some _ => false | None => true end.
Definition fixed_is (name : string) (ps : list piece) (w : Z) (ld : bool) : bool :=
  no_macro name ps && forallb (fixed_on name ps w ld) all_archs.
Lemma archs_all a : In a all_archs.
Proof. destruct a; cbn; tauto. Qed.

Lemma encode_words o i v ws w b st : mips_encode o i v = ROk ws ->
  mips_encode o i (mkValid (v_pval v) (v_sval v) false b st) = ROk [w] ->
  ws = if v_nop v then [0; w] else [w].
Proof.
  unfold mips_encode. cbn [v_pval v_sval v_nop]. intros A B. apply bind_ok in A. destruct A as (x & A & A'). rewrite A in B.
  cbn [rbind] in B. apply ok_eq in B. apply ok_eq in A'. injection B as ->. symmetry. exact A'.
Qed.
Lemma rem_mod pc : Z.rem pc 4 = 0 -> pc mod 4 = 0.
Proof. intros R. pose proof (Z.quot_rem' pc 4) as H. rewrite R in H. rewrite H, Z.add_0_r, Z.mul_comm. apply Z_mod_mult. Qed.
Lemma valid_words o i pc s ignore v ws w a : mips_validate s ignore pc o i = ROk v -> mips_encode o i v = ROk ws -> mhas o MO_IPCR = false ->
  (do p <- validate_primary o 0 i; do q <- validate_secondary i p;
   mips_encode o i (mkValid p q false false (mkMips a false false 0 false))) = ROk [w] ->
  ws = if v_nop v then [0; w] else [w].
Proof.
  intros V E R F. destruct (validate_state _ _ _ _ _ _ V) as (_ & _ & _ & _ & V5 & V6).
  rewrite <- (primary_anywhere o pc i R), V5 in F. cbn [rbind] in F. rewrite V6 in F. cbn [rbind] in F.
  exact (encode_words _ _ _ _ _ _ _ E F).
Qed.
Lemma fixed_assembled s ignore pc name ps o w ld : mips_assemble s ignore pc name ps = ROk o -> fixed_word (ms_arch s) name ps = Some (w, ld) ->
  one_word o w /\ (settled s -> x_words o = [w]) /\ (ld = false -> settled (x_state o)) /\ pc mod 4 = 0.
Proof.
  intros A F. unfold fixed_word in F.
  destruct (mips_parse (ms_arch s) name ps) as [[op i]|] eqn:P; [|discriminate F].
  destruct (assemble_parts _ _ _ _ _ _ _ _ A P) as (v & V & E & S').
  destruct (mhas op MO_IPCR) eqn:R; [discriminate F|].
  destruct (do p <- validate_primary op 0 i; do q <- validate_secondary i p;
   mips_encode op i (mkValid p q false false (mkMips (ms_arch s) false false 0 false))) as [l| |] eqn:EN; [|discriminate F..].
  destruct l as [|w' [|]]; try discriminate F. injection F as -> <-.
  pose proof (valid_words _ _ _ _ _ _ _ _ _ V E R EN) as WS.
  destruct (validate_state _ _ _ _ _ _ V) as (_ & V2 & V3 & V4 & _). unfold one_word. rewrite WS, S'.
  split; [destruct (v_nop v); auto|]. split; [intros H; rewrite (V2 H); reflexivity|]. split; [exact V3|exact (rem_mod _ V4)].
Qed.
Lemma no_macro_none name ps : no_macro name ps = true -> find_macro mipsMacros name ps = None.
Proof. unfold no_macro. destruct (find_macro mipsMacros name ps); [discriminate|reflexivity]. Qed.
Lemma fixed_on_word name ps w ld s ignore pc o : mips_assemble s ignore pc name ps = ROk o -> fixed_on name ps w ld (ms_arch s) = true ->
  fixed_word (ms_arch s) name ps = Some (w, ld).
Proof.
  intros A G. unfold fixed_on in G. destruct (fixed_word (ms_arch s) name ps) as [[w' ld']|].
  - apply andb_prop in G. destruct G as [G1 G2]. apply Z.eqb_eq in G1. apply eqb_prop in G2. rewrite G1, G2. reflexivity.
  - unfold mips_assemble in A. destruct (mips_parse (ms_arch s) name ps); discriminate.
Qed.
Lemma on_all (f : mips_arch -> bool) a : forallb f all_archs = true -> f a = true.
Proof. intros H. apply (proj1 (forallb_forall _ _) H), archs_all. Qed.
Lemma fixed_line depth s ignore pc name ps out w ld : mips_line depth s ignore pc name ps = ROk out ->
  fixed_is name ps w ld = true ->
  one_word out w /\ (settled s -> x_words out = [w]) /\ (ld = false -> settled (x_state out)) /\ pc mod 4 = 0.
Proof.
  unfold fixed_is. intros L F. apply andb_prop in F. destruct F as [F G].
  destruct (plain_line _ _ _ _ _ _ _ L (no_macro_none _ _ F)) as (o & A & W & S'). unfold one_word. rewrite W, S'.
  exact (fixed_assembled s ignore pc name ps o w ld A (fixed_on_word _ _ _ _ _ _ _ _ A (on_all _ _ G))).
Qed.

(** The branches of the template. *)
Lemma branch_line depth s ignore pc p q a b z out : mips_line depth s ignore pc "bne" [gpr p; PSym ","; gpr q; PSym ","; val z] = ROk out ->
  find_macro mipsMacros "bne" [gpr p; PSym ","; gpr q; PSym ","; val z] = None ->
  (forall r, match mips_parse r "bne" [gpr p; PSym ","; gpr q; PSym ","; val z] with Some (o, _) => mhas o MO_DELAYRT = false | None => True end) ->
  register Gpr (gpr p) = Some a -> register Gpr (gpr q) = Some b -> settled s -> z mod 4 = 0 -> s32 (z - pc - 4) <> 0x20000 ->
  exists w, x_words out = [w] /\ (forall c, branch_if w c = Some (negb (reg c a =? reg c b), false)) /\ branch_target pc w = Some (u32 z) /\
    settled (x_state out).
Proof.
  intros L F D RA RB ST AL NE. destruct (plain_line _ _ _ _ _ _ _ L F) as (o & A & W & S'). rewrite W, S'. clear L W S' out F.
  specialize (D (ms_arch s)).
  destruct (mips_parse (ms_arch s) "bne" [gpr p; PSym ","; gpr q; PSym ","; val z]) as [[op i]|] eqn:P.
  2: { unfold mips_assemble in A. rewrite P in A. discriminate. }
  destruct (assemble_parts _ _ _ _ _ _ _ _ A P) as (v & V & E & S').
  destruct (validate_state _ _ _ _ _ _ V) as (_ & V2 & V3 & V4 & V5 & V6).
  assert (one : exists w, x_words o = [w]).
  { unfold mips_encode in E. apply bind_ok in E. destruct E as (w & _ & E). rewrite (V2 ST) in E. apply ok_eq in E. exists w. symmetry. exact E. }
  destruct one as (w & W). exists w. split; [exact W|]. split; [|split].
  - intros c. assert (N : In ("bne", 5) br_names) by (cbn; tauto).
    destruct (line_br "bne" 5 s ignore pc (gpr p) (gpr q) (val z) a b o c N A RA RB) as (w' & OW & B).
    assert (w' = w) as -> by (destruct OW as [OW|OW]; rewrite W in OW; congruence). exact B.
  - exact (branch_exact _ _ _ _ _ _ z _ A eq_refl W eq_refl AL NE).
  - rewrite S'. exact (V3 D).
Qed.

(** ** The machine *)

Definition loaded (code : Z -> option Z) (pc : Z) (ws : list Z) : Prop :=
  forall i w, nth_error ws i = Some w -> code (pc + 4 * Z.of_nat i) = Some w.
Lemma loaded_app code pc a b : loaded code pc (a ++ b) -> loaded code pc a /\ loaded code (pc + 4 * Z.of_nat (List.length a)) b.
Proof.
  intros H. split; intros i w E.
  - apply H. rewrite nth_error_app1; [exact E|]. apply nth_error_Some. rewrite E. discriminate.
  - replace (pc + 4 * Z.of_nat (List.length a) + 4 * Z.of_nat i) with (pc + 4 * Z.of_nat (List.length a + i)) by lia.
    apply H. rewrite nth_error_app2 by lia. replace (List.length a + i - List.length a)%nat with i by lia. exact E.
Qed.
Lemma loaded_code base ws : loaded (code_at 4 base ws) base ws.
Proof.
  intros i w E. unfold code_at.
  replace (base + 4 * Z.of_nat i - base) with (Z.of_nat i * 4) by lia. rewrite Z.mod_mul, Z.div_mul by lia.
  replace (base <=? base + 4 * Z.of_nat i) with true by (symmetry; apply Z.leb_le; lia). cbn [andb Z.eqb]. rewrite Nat2Z.id. exact E.
Qed.
Lemma loaded_one code pc w : loaded code pc [w] -> code pc = Some w.
Proof. intros H. specialize (H 0%nat w eq_refl). rewrite Z.mul_0_r, Z.add_0_r in H. exact H. Qed.

(** What is executed is no branch. *)
Lemma exec_straight w c c' : exec w c = Some c' ->
  (w_op w =? 0) && (w_fn w =? 8) = false /\ (w_op w =? 0) && (w_fn w =? 9) = false /\ branch_if w c = None.
Proof.
  intros E. unfold exec in E. unfold branch_if.
  destruct (Z.eqb_spec (w_op w) 0) as [O|O].
  - rewrite O in E |- *. split; [|split; [|reflexivity]]; apply andb_false_iff; right; apply Z.eqb_neq; intros F; rewrite F in E;
      destruct (negb (w_sa w =? 0)); discriminate E.
  - split; [reflexivity|]. split; [reflexivity|]. 
    destruct (Z.eq_dec (w_op w) 4) as [X|X]; [rewrite X in E; discriminate E|].
    destruct (Z.eq_dec (w_op w) 5) as [X5|X5]; [rewrite X5 in E; discriminate E|].
    destruct (Z.eq_dec (w_op w) 0x14) as [X6|X6]; [rewrite X6 in E; discriminate E|].
    destruct (Z.eq_dec (w_op w) 0x15) as [X7|X7]; [rewrite X7 in E; discriminate E|].
    clear - O X X5 X6 X7. destruct (w_op w) as [|p|p]; [reflexivity| |reflexivity].
    repeat (destruct p as [p|p|]; try reflexivity; try (exfalso; lia)).
Qed.
Lemma step_exec code m w c : code (m_pc m) = Some w -> exec w (m_cpu m) = Some c ->
  step code m = Some (mkMachine (m_next m) (m_next m + 4) c).
Proof.
  intros C E. unfold step. rewrite C. destruct (exec_straight _ _ _ E) as (E1 & E2 & E3). rewrite E1, E2, E3, E. reflexivity.
Qed.
Lemma straight code call ws : forall pc c c' l e, loaded code pc ws -> run ws c = Some c' ->
  runs code call (at_pc (pc + 4 * Z.of_nat (List.length ws)) c') l e -> runs code call (at_pc pc c) l e.
Proof.
  induction ws as [|w ws IH]; intros pc c c' l e L R H.
  - cbn [run] in R. injection R as <-. cbn [List.length Z.of_nat] in H. rewrite Z.mul_0_r, Z.add_0_r in H. exact H.
  - cbn [run] in R. destruct (exec w c) as [c1|] eqn:E; [|discriminate].
    change (w :: ws) with ([w] ++ ws) in L. apply loaded_app in L. destruct L as [L1 L2]. apply loaded_one in L1.
    eapply runs_step; [apply step_exec with (w := w) (c := c1); [exact L1|exact E]|].
    cbn [at_pc m_next]. change (mkMachine (pc + 4) (pc + 4 + 4) c1) with (at_pc (pc + 4) c1).
    apply IH with (c' := c'); [|exact R|].
    + replace (pc + 4) with (pc + 4 * Z.of_nat (List.length [w])) by (cbn [List.length]; lia). exact L2.
    + replace (pc + 4 + 4 * Z.of_nat (List.length ws)) with (pc + 4 * Z.of_nat (List.length (w :: ws))) by (cbn [List.length]; lia). exact H.
Qed.
(** A branch and its delay slot. *)
Lemma branch_slot code call pc w d c taken t c' l e : code pc = Some w -> code (pc + 4) = Some d ->
  (w_op w =? 0) = false ->
  branch_if w c = Some (taken, false) -> branch_target pc w = Some t -> exec d c = Some c' ->
  runs code call (at_pc (if taken then t else pc + 8) c') l e -> runs code call (at_pc pc c) l e.
Proof.
  intros W D O B T E H.
  assert (ST : step code (at_pc pc c) = Some (mkMachine (pc + 4) (if taken then t else pc + 8) c)).
  { unfold step, at_pc. cbn [m_pc m_next m_cpu]. rewrite W, O, B, T. cbn [andb]. destruct taken; [reflexivity|].
    do 2 f_equal; lia. }
  eapply runs_step; [exact ST|]. eapply runs_step; [apply step_exec with (w := d) (c := c'); [exact D|exact E]|]. exact H.
Qed.
Lemma jump_slot code call pc w d c t c1 c' l e : code pc = Some w -> code (pc + 4) = Some d ->
  step code (at_pc pc c) = Some (mkMachine (pc + 4) t c1) -> exec d c1 = Some c' ->
  runs code call (at_pc t c') l e -> runs code call (at_pc pc c) l e.
Proof.
  intros W D ST E H. eapply runs_step; [exact ST|]. eapply runs_step; [apply step_exec with (w := d) (c := c'); [exact D|exact E]|]. exact H.
Qed.

(** ** Memory *)

Lemma u32_small a : 0 <= a < 2 ^ 32 -> u32 a = a.
Proof. intros H. unfold u32. apply Z.mod_small, H. Qed.
Lemma ram_poke32 c a v x : 0 <= a -> a + 4 <= 2 ^ 32 ->
  ram (poke32 c a v) x = if x =? a + 3 then u8 (v / 65536 / 256) else if x =? a + 2 then u8 (v / 65536)
                         else if x =? a + 1 then u8 (v / 256) else if x =? a then u8 v else ram c x.
Proof.
  intros H1 H2. unfold poke32, poke16, poke. cbn [ram]. rewrite !u32_small by lia.
  replace (a + 2 + 1) with (a + 3) by lia. reflexivity.
Qed.
Lemma reg_poke32 c a v : reg (poke32 c a v) = reg c.
Proof. reflexivity. Qed.
Lemma poke32_away c a v x : 0 <= a -> a + 4 <= 2 ^ 32 -> x < a \/ a + 4 <= x -> ram (poke32 c a v) x = ram c x.
Proof.
  intros H1 H2 H. rewrite ram_poke32 by assumption.
  destruct (Z.eqb_spec x (a + 3)); [lia|]. destruct (Z.eqb_spec x (a + 2)); [lia|]. destruct (Z.eqb_spec x (a + 1)); [lia|].
  destruct (Z.eqb_spec x a); [lia|reflexivity].
Qed.
Lemma peek32_same c c' a : 0 <= a -> a + 4 <= 2 ^ 32 -> (forall x, within a 4 x -> ram c' x = ram c x) -> peek32 c' a = peek32 c a.
Proof.
  intros H1 H2 H. unfold within in H. unfold peek32, peek16, peek. rewrite !u32_small by lia. rewrite !H by lia. reflexivity.
Qed.
Lemma peek32_poke32 c a v : 0 <= a -> a + 4 <= 2 ^ 32 -> 0 <= v < 2 ^ 32 -> peek32 (poke32 c a v) a = v.
Proof.
  intros H1 H2 H. unfold peek32, peek16, peek. rewrite !u32_small by lia. rewrite !ram_poke32 by assumption.
  replace (a + 2 + 1) with (a + 3) by lia.
  rewrite (proj2 (Z.eqb_neq a (a + 3))), (proj2 (Z.eqb_neq a (a + 2))), (proj2 (Z.eqb_neq a (a + 1))), Z.eqb_refl by lia.
  rewrite (proj2 (Z.eqb_neq (a + 1) (a + 3))), (proj2 (Z.eqb_neq (a + 1) (a + 2))), Z.eqb_refl by lia.
  rewrite (proj2 (Z.eqb_neq (a + 2) (a + 3))), !Z.eqb_refl by lia.
  unfold u8. rewrite Z.div_div by lia. change (65536 * 256) with 16777216.
  pose proof (Z.div_mod v 256 ltac:(lia)). pose proof (Z.div_mod (v / 256) 256 ltac:(lia)).
  pose proof (Z.div_mod (v / 65536) 256 ltac:(lia)). rewrite !Z.div_div in * by lia. change (256 * 256) with 65536 in *. change (65536 * 256) with 16777216 in *.
  assert (0 <= v / 16777216 < 256) by (split; [apply Z.div_pos; lia|apply Z.div_lt_upper_bound; lia]).
  rewrite (Z.mod_small (v / 16777216)) by lia. clear - H0 H3 H4. lia.
Qed.
