(** Proofs about the MIPS macros on the reference machine. *)

Require Import ZArith Lia Bool List String Ascii.
Require Import ZifyBool.
Require Import Verif.Ints Verif.IntsLemmas Verif.BitFields Verif.Res Verif.MipsTable Verif.MipsModel Verif.MipsSpec
  Verif.MipsProofs Verif.MipsWordProofs Verif.MipsCpu Verif.MipsDecodeProofs Verif.MipsMacroModel Verif.MipsExecProofs.
Import ListNotations.
Local Open Scope string_scope.
Local Open Scope list_scope.
Local Open Scope Z_scope.

(** ** Numbers *)

Lemma s16_spec z : s16 z = (z + 32768) mod 65536 - 32768.
Proof. unfold s16. cbv zeta. destruct (z mod 65536 <? 32768) eqn:C; Z.div_mod_to_equations; lia. Qed.
Lemma s16_split z : exists k, s16 z = z + 65536 * k.
Proof.
  rewrite s16_spec. pose proof (Z.div_mod (z + 32768) 65536 ltac:(lia)). exists (- ((z + 32768) / 65536)). lia.
Qed.
Lemma s16_bounds z : -32768 <= s16 z < 32768.
Proof. rewrite s16_spec. pose proof (Z.mod_pos_bound (z + 32768) 65536 ltac:(lia)). lia. Qed.
Lemma s16_id z : -32768 <= z < 32768 -> s16 z = z.
Proof. intros H. rewrite s16_spec, Z.mod_small; lia. Qed.
Lemma u32_cong a b k : a = b + 4294967296 * k -> u32 a = u32 b.
Proof. intros ->. unfold u32. rewrite (Z.mul_comm 4294967296), Z_mod_plus_full. reflexivity. Qed.
Lemma u32_small z : 0 <= z < 4294967296 -> u32 z = z.
Proof. intros H. unfold u32. apply Z.mod_small. exact H. Qed.
Lemma u32_bounds z : 0 <= u32 z < 4294967296.
Proof. unfold u32. apply Z.mod_pos_bound. lia. Qed.
Lemma u32_split z : exists k, u32 z = z + 4294967296 * k.
Proof. unfold u32. pose proof (Z.div_mod z 4294967296 ltac:(lia)). exists (- (z / 4294967296)). lia. Qed.
Lemma u32_plus_l a b : u32 (u32 a + b) = u32 (a + b).
Proof. unfold u32. rewrite Z.add_mod_idemp_l by lia. reflexivity. Qed.
Lemma u32_u32 a : u32 (u32 a) = u32 a.
Proof. unfold u32. rewrite Z.mod_mod by lia. reflexivity. Qed.

Lemma land_bit15 z : (Z.land z 0x8000 =? 0) = (z mod 65536 <? 32768).
Proof.
  change (Z.land z 0x8000) with (Z.land z (2 ^ 15)).
  assert (E : Z.land z (2 ^ 15) = if Z.testbit z 15 then 2 ^ 15 else 0).
  { apply Z.bits_inj'. intros k Hk. rewrite Z.land_spec, Z.pow2_bits_eqb by lia. destruct (Z.eqb_spec 15 k) as [<-|N].
    - destruct (Z.testbit z 15); [|rewrite Z.bits_0]; reflexivity.
    - rewrite andb_false_r. destruct (Z.testbit z 15); [|rewrite Z.bits_0; reflexivity]. rewrite Z.pow2_bits_false by lia. reflexivity. }
  rewrite E. rewrite Z.testbit_odd, Z.shiftr_div_pow2 by lia.
  pose proof (Z.div_mod z 65536 ltac:(lia)). pose proof (Z.mod_pos_bound z 65536 ltac:(lia)).
  assert (D : z / 2 ^ 15 = 2 * (z / 65536) + (if z mod 65536 <? 32768 then 0 else 1)).
  { change (2 ^ 15) with 32768. symmetry. apply Z.div_unique_pos with (r := z mod 65536 - (if z mod 65536 <? 32768 then 0 else 32768));
      destruct (z mod 65536 <? 32768) eqn:C; lia. }
  rewrite D, Z.add_comm, Z.odd_add_mul_2. destruct (z mod 65536 <? 32768); reflexivity.
Qed.
Lemma ones_minus n : 2 ^ n - 1 = Z.ones n.
Proof. rewrite Z.ones_equiv. lia. Qed.
Lemma land_ones n z : 0 <= n -> Z.land z (2 ^ n - 1) = z mod 2 ^ n.
Proof. intros H. rewrite ones_minus. apply Z.land_ones. exact H. Qed.
Lemma land_high n z : 0 <= n -> Z.land z (Z.lnot (2 ^ n - 1)) = z / 2 ^ n * 2 ^ n.
Proof.
  intros H. rewrite ones_minus, <- Z.ldiff_land, Z.ldiff_ones_r by exact H.
  rewrite Z.shiftl_mul_pow2, Z.shiftr_div_pow2 by exact H. reflexivity.
Qed.

Lemma lo_spec z : lo_of z = s16 z.
Proof. unfold lo_of. change 0xFFFF with (2 ^ 16 - 1). rewrite land_ones by lia. apply s16_mod16. Qed.
Lemma hi_spec z : hi_of z = (z / 65536 + (if z mod 65536 <? 32768 then 0 else 1)) mod 65536.
Proof.
  unfold hi_of. rewrite land_bit15. change 0xFFFF with (2 ^ 16 - 1). rewrite land_ones by lia. reflexivity.
Qed.
(** The two halves put together. *)
Lemma hi_lo z : exists k, hi_of z * 65536 + lo_of z = z + 4294967296 * k.
Proof.
  rewrite hi_spec, lo_spec. unfold s16. cbv zeta. destruct (z mod 65536 <? 32768) eqn:C.
  - exists (- ((z / 65536 + 0) / 65536)). Z.div_mod_to_equations; lia.
  - exists (- ((z / 65536 + 1) / 65536)). Z.div_mod_to_equations; lia.
Qed.
Lemma hi_range z : 0 <= hi_of z < 65536.
Proof. rewrite hi_spec. apply Z.mod_pos_bound. lia. Qed.

(** ** Lines *)

(** The lines after expansion, with their words; the state they are assembled in is forgotten. *)
Inductive code : Z -> list mline -> list Z -> Prop :=
| code_nil pc : code pc [] []
| code_cons s ignore pc l x ls ws : mips_assemble s ignore pc (fst l) (snd l) = ROk x ->
    code (pc + 4 * Z.of_nat (List.length (x_words x))) ls ws -> code pc (l :: ls) (x_words x ++ ws).
Lemma code_lines ls : forall s ignore pc out, assemble_lines s ignore pc ls = ROk out -> code pc ls (x_words out).
Proof.
  induction ls as [|l ls IH]; intros s ignore pc out E; cbn [assemble_lines] in E.
  - apply ROk_inj in E. subst out. constructor.
  - destruct (mips_assemble s ignore pc (fst l) (snd l)) as [x| |] eqn:A; cbn [rbind] in E; try discriminate.
    destruct (assemble_lines _ _ _ ls) as [y| |] eqn:B in E; cbn [rbind] in E; try discriminate.
    apply ROk_inj in E. subst out. cbn [x_words]. econstructor; [exact A|]. exact (IH _ _ _ _ B).
Qed.
Lemma code_app a : forall pc b ws, code pc (a ++ b) ws -> exists w1 w2, ws = w1 ++ w2 /\ code pc a w1 /\
  code (pc + 4 * Z.of_nat (List.length w1)) b w2.
Proof.
  induction a as [|l a IH]; intros pc b ws C; cbn [app] in C.
  - exists [], ws. cbn [List.length]. rewrite Z.mul_0_r, Z.add_0_r. repeat split; [constructor|exact C].
  - inversion C as [|s ig pc' l' x ls' w A R]; subst. destruct (IH _ _ _ R) as (w1 & w2 & -> & C1 & C2).
    exists (x_words x ++ w1), w2. rewrite app_assoc. split; [reflexivity|]. split; [econstructor; eassumption|].
    rewrite app_length, Nat2Z.inj_add, Z.mul_add_distr_l, Z.add_assoc. exact C2.
Qed.
Lemma code_one pc l ws : code pc [l] ws -> exists s ignore x, mips_assemble s ignore pc (fst l) (snd l) = ROk x /\ ws = x_words x.
Proof.
  intros C. inversion C as [|s ig pc' l' x ls' w A R]; subst. inversion R; subst. exists s, ig, x. rewrite app_nil_r. auto.
Qed.

(** The lines a macro gives, each expanded and assembled. *)
Definition coded (fuel : nat) (arch : mips_arch) (pc : Z) (l : mline) (ws : list Z) : Prop :=
  exists ls, expand fuel arch l = ROk ls /\ code pc ls ws.
Inductive all_coded (fuel : nat) (arch : mips_arch) : Z -> list mline -> list Z -> Prop :=
| all_nil pc : all_coded fuel arch pc [] []
| all_cons pc l w ls ws : coded fuel arch pc l w -> all_coded fuel arch (pc + 4 * Z.of_nat (List.length w)) ls ws ->
    all_coded fuel arch pc (l :: ls) (w ++ ws).

Lemma mips_line_coded depth s ignore pc name ps out : mips_line depth s ignore pc name ps = ROk out -> coded depth (ms_arch s) pc (name, ps) (x_words out).
Proof.
  unfold mips_line. destruct (expand depth (ms_arch s) (name, ps)) as [ls| |] eqn:E; cbn [rbind]; try discriminate.
  intros A. exists ls. split; [exact E|]. exact (code_lines _ _ _ _ _ A).
Qed.
Lemma coded_plain fuel arch pc l ws : coded fuel arch pc l ws -> find_macro mipsMacros (fst l) (snd l) = None ->
  exists s ignore x, mips_assemble s ignore pc (fst l) (snd l) = ROk x /\ ws = x_words x.
Proof.
  intros (ls & E & C) N. assert (E' : expand fuel arch l = ROk [l]) by (destruct fuel; cbn [expand]; rewrite N; reflexivity).
  rewrite E' in E. apply ROk_inj in E. subst ls. exact (code_one _ _ _ C).
Qed.
Definition expand_all (fuel : nat) (arch : mips_arch) : list mline -> res (list mline) :=
  fix each (ls : list mline) : res (list mline) :=
    match ls with
    | [] => ROk []
    | l :: ls => do x <- expand fuel arch l; do y <- each ls; ROk (x ++ y)
    end.
Lemma expand_cons fuel arch l ls :
  expand_all fuel arch (l :: ls) = do x <- expand fuel arch l; do y <- expand_all fuel arch ls; ROk (x ++ y).
Proof. reflexivity. Qed.
Lemma expand_macro fuel arch l m a : find_macro mipsMacros (fst l) (snd l) = Some (m, a) ->
  expand (S fuel) arch l = do ls <- generate arch m a; expand_all fuel arch ls.
Proof. intros F. unfold expand at 1. rewrite F. reflexivity. Qed.
Lemma expand_none arch l m a : find_macro mipsMacros (fst l) (snd l) = Some (m, a) -> expand 0 arch l = RErr.
Proof. intros F. unfold expand. rewrite F. reflexivity. Qed.
Lemma all_expanded fuel arch gl : forall pc ls ws, expand_all fuel arch gl = ROk ls -> code pc ls ws -> all_coded fuel arch pc gl ws.
Proof.
  induction gl as [|g gl IH]; intros pc ls ws E C; [|rewrite expand_cons in E].
  - apply ROk_inj in E. subst ls. inversion C; subst. constructor.
  - destruct (expand fuel arch g) as [x| |] eqn:X; cbn [rbind] in E; try discriminate.
    destruct (expand_all fuel arch gl) as [y| |] eqn:Y; cbn [rbind] in E; try discriminate.
    apply ROk_inj in E. subst ls. destruct (code_app _ _ _ _ C) as (w1 & w2 & -> & C1 & C2).
    constructor; [exists x; auto|]. exact (IH _ _ _ eq_refl C2).
Qed.
Lemma coded_macro fuel arch pc l ws m a : coded fuel arch pc l ws -> find_macro mipsMacros (fst l) (snd l) = Some (m, a) ->
  exists fuel' ls, fuel = S fuel' /\ generate arch m a = ROk ls /\ all_coded fuel' arch pc ls ws.
Proof.
  intros (ls & E & C) F. destruct fuel as [|fuel]; [rewrite (expand_none _ _ _ _ F) in E; discriminate|].
  rewrite (expand_macro _ _ _ _ _ F) in E.
  destruct (generate arch m a) as [gl| |]; cbn [rbind] in E; try discriminate. exists fuel, gl. split; [reflexivity|]. split; [reflexivity|].
  exact (all_expanded _ _ _ _ _ _ E C).
Qed.
Lemma all_inv fuel arch pc l ls ws : all_coded fuel arch pc (l :: ls) ws ->
  exists w1 w2, ws = w1 ++ w2 /\ coded fuel arch pc l w1 /\ all_coded fuel arch (pc + 4 * Z.of_nat (List.length w1)) ls w2.
Proof. intros H. inversion H; subst. eauto. Qed.
Lemma all_end fuel arch pc ws : all_coded fuel arch pc [] ws -> ws = [].
Proof. intros H. inversion H. reflexivity. Qed.

(** ** Which macro a line is *)

Definition named (name : string) : list macro := filter (fun m => String.eqb (k_name m) name) mipsMacros.
Fixpoint first_fit (l : list macro) (ps : list piece) : option (macro * margs) :=
  match l with
  | [] => None
  | m :: l => match parse_macro_args (k_args m) ps no_args with Some a => Some (m, a) | None => first_fit l ps end
  end.
Lemma find_named name ps : find_macro mipsMacros name ps = first_fit (named name) ps.
Proof.
  unfold named. induction mipsMacros as [|m l IH]; [reflexivity|]. cbn [find_macro filter].
  destruct (String.eqb (k_name m) name); [|exact IH]. cbn [first_fit]. destruct (parse_macro_args (k_args m) ps no_args); [reflexivity|exact IH].
Qed.
Lemma args_nil a : parse_macro_args "" [] a = Some a. Proof. reflexivity. Qed.
Lemma args_s enc p r a n : register Gpr p = Some n ->
  parse_macro_args (String "s" enc) (p :: r) a = parse_macro_args enc r (mkArgs (a_rt a) (a_rd a) (reg_text p) (a_frs a) (a_i a) (a_I a)).
Proof. intros R. cbn [parse_macro_args]. rewrite register_gpr, R. reflexivity. Qed.
Lemma args_t enc p r a n : register Gpr p = Some n ->
  parse_macro_args (String "t" enc) (p :: r) a = parse_macro_args enc r (mkArgs (reg_text p) (a_rd a) (a_rs a) (a_frs a) (a_i a) (a_I a)).
Proof. intros R. cbn [parse_macro_args]. rewrite register_gpr, R. reflexivity. Qed.
Lemma args_d enc p r a n : register Gpr p = Some n ->
  parse_macro_args (String "d" enc) (p :: r) a = parse_macro_args enc r (mkArgs (a_rt a) (reg_text p) (a_rs a) (a_frs a) (a_i a) (a_I a)).
Proof. intros R. cbn [parse_macro_args]. rewrite register_gpr, R. reflexivity. Qed.
Lemma args_S enc p r a n : register Fpr p = Some n ->
  parse_macro_args (String "S" enc) (p :: r) a = parse_macro_args enc r (mkArgs (a_rt a) (a_rd a) (a_rs a) (reg_text p) (a_i a) (a_I a)).
Proof. intros R. cbn [parse_macro_args]. rewrite (parse_register_spec RfFloat p). change (MipsProofs.kind_of RfFloat) with Fpr. rewrite R. reflexivity. Qed.
Lemma args_no_t enc p r a : register Gpr p = None -> parse_macro_args (String "t" enc) (p :: r) a = None.
Proof. intros R. cbn [parse_macro_args]. rewrite register_gpr, R. reflexivity. Qed.
Lemma args_i enc p r a v : parse_immediate p = Some v ->
  parse_macro_args (String "i" enc) (p :: r) a = parse_macro_args enc r (mkArgs (a_rt a) (a_rd a) (a_rs a) (a_frs a) (Some v) (a_I a)).
Proof. intros R. cbn [parse_macro_args]. rewrite R. reflexivity. Qed.
Lemma args_I enc p r a v : parse_immediate p = Some v ->
  parse_macro_args (String "I" enc) (p :: r) a = parse_macro_args enc r (mkArgs (a_rt a) (a_rd a) (a_rs a) (a_frs a) (a_i a) (Some v)).
Proof. intros R. cbn [parse_macro_args]. rewrite R. reflexivity. Qed.
Lemma args_no_i enc p r a : parse_immediate p = None -> parse_macro_args (String "i" enc) (p :: r) a = None.
Proof. intros R. cbn [parse_macro_args]. rewrite R. reflexivity. Qed.
Lemma args_no_I enc p r a : parse_immediate p = None -> parse_macro_args (String "I" enc) (p :: r) a = None.
Proof. intros R. cbn [parse_macro_args]. rewrite R. reflexivity. Qed.
Lemma args_comma enc r a : parse_macro_args (String "," enc) (PSym "," :: r) a = parse_macro_args enc r a.
Proof. reflexivity. Qed.
Lemma args_open enc r a : parse_macro_args (String "(" enc) (PSym "(" :: r) a = parse_macro_args enc r a.
Proof. reflexivity. Qed.
Lemma args_close enc r a : parse_macro_args (String ")" enc) (PSym ")" :: r) a = parse_macro_args enc r a.
Proof. reflexivity. Qed.

(** ** Operands of the lines *)

Lemma reg_r0 : register Gpr (rg "r0") = Some 0. Proof. reflexivity. Qed.
Lemma reg_r1 : register Gpr (rg "r1") = Some 1. Proof. reflexivity. Qed.
Lemma int_im z : integer (im z) = Some z. Proof. reflexivity. Qed.

(** Find the macro of a line whose mnemonic is known. *)
Ltac fit :=
  cbn [fst snd ln lmem]; rewrite find_named;
  match goal with |- first_fit (named ?n) _ = _ => let l := eval vm_compute in (named n) in let E := fresh in assert (E : named n = l) by (vm_compute; reflexivity); rewrite E; clear E end;
  cbn [first_fit k_args commas];
  repeat first
    [ rewrite args_nil | rewrite args_comma | rewrite args_open | rewrite args_close
    | erewrite args_s by eassumption | erewrite args_d by eassumption | erewrite args_S by eassumption
    | erewrite args_t by eassumption | rewrite args_no_t by (first [eassumption | eapply integer_not_register; eassumption])
    | erewrite args_I by eassumption | rewrite args_no_I by (eapply register_not_immediate; eassumption)
    | erewrite args_i by eassumption | rewrite args_no_i by (eapply register_not_immediate; eassumption) ];
  reflexivity.
(** A line whose mnemonic is no macro. *)
Ltac no_macro := cbn [fst snd ln lmem]; rewrite find_named; reflexivity.

(** ** li *)

Lemma li_find name flags p q n v : In (name, flags) [("li", (true, true)); ("la", (true, true)); ("li.u", (true, false)); ("la.u", (true, false));
    ("li.l", (false, true)); ("la.l", (false, true))] ->
  register Gpr p = Some n -> parse_immediate q = Some v ->
  exists m a, find_macro mipsMacros name [p; PSym ","; q] = Some (m, a) /\ k_gen m = GLi /\ has (k_flags m) MIPSM_UPPER = fst flags /\
    has (k_flags m) MIPSM_LOWER = snd flags /\ a_rs a = reg_text p /\ a_I a = Some v.
Proof.
  intros N R I.
  cbn in N; repeat (destruct N as [N|N]; [injection N as <- <-; eexists; eexists; split; [fit|repeat split]|]); destruct N.
Qed.

(** Register [n] gets the value [v], everything else stays. *)
Definition sets (c : cpu) (n v : Z) (c' : cpu) : Prop :=
  (forall r, reg c' r = if (r =? n) && negb (n =? 0) then u32 v else reg c r) /\ ram c' = ram c.
Lemma sets_set c n v : sets c n v (set c n v).
Proof.
  unfold sets. rewrite set_ram. split; [|reflexivity]. intros r. unfold set. destruct (Z.eqb_spec n 0); [rewrite andb_false_r; reflexivity|].
  cbn [reg negb]. rewrite andb_true_r. reflexivity.
Qed.
Lemma sets_other c n v c' r : sets c n v c' -> r <> n -> reg c' r = reg c r.
Proof. intros [H _] N. rewrite H. destruct (Z.eqb_spec r n); [contradiction|reflexivity]. Qed.
Lemma sets_zero c n v c' : sets c n v c' -> reg c' 0 = reg c 0.
Proof. intros [H _]. rewrite H. destruct (Z.eqb_spec 0 n) as [<-|]; reflexivity. Qed.
Lemma sets_same c n v c' : sets c n v c' -> n <> 0 -> reg c' n = u32 v.
Proof. intros [H _] N. rewrite H. destruct (Z.eqb_spec n 0); [contradiction|]. rewrite Z.eqb_refl. reflexivity. Qed.
Lemma sets_ram c n v c' : sets c n v c' -> ram c' = ram c.
Proof. intros [_ H]. exact H. Qed.
Lemma sets_cong c n v v' c' : sets c n v c' -> u32 v = u32 v' -> sets c n v' c'.
Proof. intros [H R] E. split; [|exact R]. intros r. rewrite H, E. reflexivity. Qed.
Lemma sets_none c v v' c' : sets c 0 v c' -> sets c 0 v' c'.
Proof. intros [H R]. split; [|exact R]. intros r. rewrite H, !andb_false_r. reflexivity. Qed.
Lemma sets_twice c n v c1 v' c2 : sets c n v c1 -> sets c1 n v' c2 -> sets c n v' c2.
Proof.
  intros [H R] [H' R']. split; [|rewrite R'; exact R]. intros r. rewrite H', H. destruct ((r =? n) && negb (n =? 0)); reflexivity.
Qed.
Lemma sets_sane c n v c' : sets c n v c' -> sane c -> sane c'.
Proof.
  intros [H R] (Z0 & B & M). unfold sane. rewrite R. split; [|split; [|exact M]].
  - rewrite H. destruct (Z.eqb_spec 0 n) as [<-|]; exact Z0.
  - intros r. rewrite H. destruct ((r =? n) && negb (n =? 0)); [apply u32_bounds|apply B].
Qed.

Ltac next H w A := let w2 := fresh "ws" in let C := fresh "C" in
  apply all_inv in H; destruct H as (w & w2 & -> & C & H);
  apply coded_plain in C; [destruct C as (? & ? & ? & A & ->)|no_macro]; cbn [fst snd ln] in A.
Ltac ended H := apply all_end in H; subst; rewrite ?app_nil_r.

Lemma case_small z : (Z.land z (Z.lnot 0xFFFF) =? 0) = (0 <=? z) && (z <? 65536).
Proof. change 0xFFFF with (2 ^ 16 - 1). rewrite land_high by lia. change (2 ^ 16) with 65536. Z.div_mod_to_equations. lia. Qed.
Lemma land_top z : Z.land z 0xFFFF8000 = z mod 4294967296 / 32768 * 32768.
Proof.
  change 0xFFFF8000 with (Z.land (2 ^ 32 - 1) (Z.lnot (2 ^ 15 - 1))). rewrite Z.land_assoc, land_ones, land_high by lia. reflexivity.
Qed.
Lemma case_top z : (Z.land z 0xFFFF8000 =? 0xFFFF8000) = (0xFFFF8000 <=? u32 z).
Proof. rewrite land_top. unfold u32. Z.div_mod_to_equations. lia. Qed.
Lemma case_low z : (Z.land z 0xFFFF =? 0) = (z mod 65536 =? 0).
Proof. change 0xFFFF with (2 ^ 16 - 1). rewrite land_ones by lia. reflexivity. Qed.

Definition li_kinds : list (string * (bool * bool)) :=
  [("li", (true, true)); ("la", (true, true)); ("li.u", (true, false)); ("la.u", (true, false)); ("li.l", (false, true)); ("la.l", (false, true))].
Lemma li_lines fuel arch pc name up lo p q n z ws : coded fuel arch pc (name, [p; PSym ","; q]) ws -> In (name, (up, lo)) li_kinds ->
  register Gpr p = Some n -> integer q = Some z ->
  exists fuel' r, register Gpr r = Some n /\ Z.abs z <= 0xFFFFFFFF /\
  all_coded fuel' arch pc
    (if (0 <=? z) && (z <? 65536) then if lo then [ln "ori" [r; rg "r0"; im z]] else []
     else if 0xFFFF8000 <=? u32 z then if lo then [ln "addiu" [r; rg "r0"; im (s16 z)]] else []
     else if z mod 65536 =? 0 then if up then [ln "lui" [r; im (hi_of z)]] else if lo then [ln "nop" []] else []
     else (if up then [ln "lui" [r; im (hi_of z)]] else []) ++ (if lo then [ln "addiu" [r; im (s16 z)]] else [])) ws.
Proof.
  intros C N R I. destruct (integer_immediate _ _ I) as [h I'].
  destruct (li_find _ _ _ _ _ _ N R I') as (m & a & F & G & UP & LO & RS & II).
  destruct (coded_macro _ _ _ _ _ _ _ C F) as (f & ls & -> & GE & AC). cbn [fst snd] in UP, LO.
  unfold generate in GE. rewrite G in GE. unfold generate_li in GE. rewrite II in GE. cbn [with_int] in GE.
  rewrite UP, LO, RS, lo_spec, case_small, case_top, case_low in GE.
  destruct (z =? - 2 ^ 63); [discriminate|]. destruct (0xFFFFFFFF <? Z.abs z) eqn:B; [discriminate|].
  exists f, (reg_text p). rewrite register_text. split; [exact R|]. split; [lia|].
  destruct ((0 <=? z) && (z <? 65536)); cbn [negb] in GE; [apply ROk_inj in GE; subst ls; exact AC|].
  destruct (0xFFFF8000 <=? u32 z); [apply ROk_inj in GE; subst ls; exact AC|].
  destruct (z mod 65536 =? 0); apply ROk_inj in GE; subst ls; exact AC.
Qed.
Lemma ori_zero z : 0 <= z < 65536 -> Z.lor 0 (z mod 65536) = z.
Proof. intros H. rewrite Z.lor_0_l, Z.mod_small; [reflexivity|exact H]. Qed.
Lemma in_imm name fn l : existsb (fun x => String.eqb (fst x) name && (snd x =? fn)) l = true -> In (name, fn) l.
Proof.
  intros H. apply existsb_exists in H. destruct H as ([a b] & I & E). cbn [fst snd] in E. apply andb_true_iff in E.
  destruct E as [E1 E2]. apply String.eqb_eq in E1. apply Z.eqb_eq in E2. subst. exact I.
Qed.
Lemma li_low_value z : 0xFFFF8000 <= u32 z -> u32 (s16 (s16 z)) = u32 z.
Proof.
  intros H. rewrite (s16_id (s16 z)) by apply s16_bounds. destruct (s16_split z) as [k E].
  destruct (u32_split z) as [j U]. pose proof (s16_bounds z). pose proof (u32_bounds z).
  assert (K : s16 z = u32 z - 4294967296).
  { assert (s16 z = s16 (u32 z)) as -> by (rewrite !s16_spec; rewrite U; replace (z + 4294967296 * j + 32768) with (z + 32768 + (65536 * j) * 65536) by lia;
      rewrite Z_mod_plus_full; reflexivity).
    rewrite s16_spec. replace (u32 z + 32768) with (u32 z - 4294967296 + 32768 + 65536 * 65536) by lia. rewrite Z_mod_plus_full, Z.mod_small; lia. }
  rewrite K. apply (u32_cong _ z (j - 1)). lia.
Qed.
Lemma hi_value z : exists k, hi_of z mod 65536 * 65536 + s16 z = z + 4294967296 * k.
Proof. rewrite (Z.mod_small (hi_of z)) by apply hi_range. rewrite <- lo_spec. apply hi_lo. Qed.
Lemma hi_only z : z mod 65536 = 0 -> u32 (hi_of z mod 65536 * 65536) = u32 z.
Proof.
  intros H. destruct (hi_value z) as [k E]. assert (s16 z = 0) as L by (unfold s16; rewrite H; reflexivity).
  rewrite L in E. apply (u32_cong _ z k). lia.
Qed.

Lemma li_run fuel arch pc name p q n z ws c : coded fuel arch pc (name, [p; PSym ","; q]) ws -> In (name, (true, true)) li_kinds ->
  register Gpr p = Some n -> integer q = Some z -> reg c 0 = 0 -> exists c', run ws c = Some c' /\ sets c n z c'.
Proof.
  intros C N R I Z0. destruct (li_lines _ _ _ _ _ _ _ _ _ _ _ C N R I) as (f & r & RR & B & AC). clear C N R p I q.
  destruct ((0 <=? z) && (z <? 65536)) eqn:SM; [|destruct (0xFFFF8000 <=? u32 z) eqn:TP; [|destruct (z mod 65536 =? 0) eqn:LW]].
  - next AC w A. ended AC.
    rewrite (exec_imm "ori" (13 * 2 ^ 26) _ _ _ _ _ _ _ _ _ _ _ ltac:(apply in_imm; reflexivity) A RR reg_r0 (int_im z)).
    eexists. split; [reflexivity|]. rewrite Z0. change (13 * 2 ^ 26 / 2 ^ 26) with 13. cbn [immop]. rewrite ori_zero by lia. apply sets_set.
  - next AC w A. ended AC.
    rewrite (exec_imm "addiu" (9 * 2 ^ 26) _ _ _ _ _ _ _ _ _ _ _ ltac:(apply in_imm; reflexivity) A RR reg_r0 (int_im _)).
    eexists. split; [reflexivity|]. rewrite Z0. change (9 * 2 ^ 26 / 2 ^ 26) with 9. cbn [immop].
    eapply sets_cong; [apply sets_set|]. rewrite Z.add_0_l. apply li_low_value. lia.
  - next AC w A. ended AC. rewrite (exec_lui _ _ _ _ _ _ _ _ _ A RR (int_im _)).
    eexists. split; [reflexivity|]. eapply sets_cong; [apply sets_set|]. apply hi_only. lia.
  - cbn [app] in AC. next AC w A. next AC w2 A2. ended AC. rewrite run_app, (exec_lui _ _ _ _ _ _ _ _ _ A RR (int_im _)).
    rewrite (exec_imm2 "addiu" (9 * 2 ^ 26) _ _ _ _ _ _ _ _ _ ltac:(apply in_imm; reflexivity) A2 RR (int_im _)).
    eexists. split; [reflexivity|]. change (9 * 2 ^ 26 / 2 ^ 26) with 9. cbn [immop].
    pose proof (sets_set c n (hi_of z mod 65536 * 65536)) as S1. eapply sets_twice; [exact S1|].
    destruct (Z.eq_dec n 0) as [->|NZ].
    + apply (sets_none _ _ _ _ (sets_set _ _ _)).
    + eapply sets_cong; [apply sets_set|]. rewrite (sets_same _ _ _ _ S1 NZ), u32_plus_l, (s16_id (s16 z)) by apply s16_bounds.
      destruct (hi_value z) as [k E]. apply (u32_cong _ z k). lia.
Qed.

(** The two halves of li, with anything in between that leaves the register alone. *)
Lemma li_halves fuel fuel' arch arch' pc pc' name name' p q p' q' n z ws ws' c : coded fuel arch pc (name, [p; PSym ","; q]) ws ->
  coded fuel' arch' pc' (name', [p'; PSym ","; q']) ws' -> In (name, (true, false)) li_kinds -> In (name', (false, true)) li_kinds ->
  register Gpr p = Some n -> integer q = Some z -> register Gpr p' = Some n -> integer q' = Some z -> n <> 0 ->
  exists c1, run ws c = Some c1 /\ (forall r, r <> n -> reg c1 r = reg c r) /\ ram c1 = ram c /\
  forall c2, reg c2 n = reg c1 n -> reg c2 0 = 0 -> exists c3, run ws' c2 = Some c3 /\ sets c2 n z c3.
Proof.
  intros C C' N N' R I R' I' NZ. destruct (li_lines _ _ _ _ _ _ _ _ _ _ _ C N R I) as (f & r & RR & B & AC). clear C N R p I q.
  destruct (li_lines _ _ _ _ _ _ _ _ _ _ _ C' N' R' I') as (f' & r' & RR' & _ & AC'). clear C' N' R' p' I' q'.
  destruct ((0 <=? z) && (z <? 65536)) eqn:SM; [|destruct (0xFFFF8000 <=? u32 z) eqn:TP; [|destruct (z mod 65536 =? 0) eqn:LW]].
  - ended AC. exists c. split; [reflexivity|]. split; [reflexivity|]. split; [reflexivity|]. intros c2 H2 Z2.
    next AC' w A. ended AC'.
    rewrite (exec_imm "ori" (13 * 2 ^ 26) _ _ _ _ _ _ _ _ _ _ _ ltac:(apply in_imm; reflexivity) A RR' reg_r0 (int_im z)).
    eexists. split; [reflexivity|]. rewrite Z2. change (13 * 2 ^ 26 / 2 ^ 26) with 13. cbn [immop]. rewrite ori_zero by lia. apply sets_set.
  - ended AC. exists c. split; [reflexivity|]. split; [reflexivity|]. split; [reflexivity|]. intros c2 H2 Z2.
    next AC' w A. ended AC'.
    rewrite (exec_imm "addiu" (9 * 2 ^ 26) _ _ _ _ _ _ _ _ _ _ _ ltac:(apply in_imm; reflexivity) A RR' reg_r0 (int_im _)).
    eexists. split; [reflexivity|]. rewrite Z2. change (9 * 2 ^ 26 / 2 ^ 26) with 9. cbn [immop].
    eapply sets_cong; [apply sets_set|]. rewrite Z.add_0_l. apply li_low_value. lia.
  - next AC w A. ended AC. rewrite (exec_lui _ _ _ _ _ _ _ _ _ A RR (int_im _)). eexists. split; [reflexivity|].
    split; [intros y Y; apply set_other; exact Y|]. split; [apply set_ram|]. intros c2 H2 Z2. next AC' w2 A2. ended AC'.
    rewrite (exec_nop _ _ _ _ _ A2). exists c2. split; [reflexivity|]. rewrite (set_same _ _ _ NZ), hi_only in H2 by lia.
    split; [|reflexivity]. intros y. destruct (Z.eqb_spec y n) as [->|]; [|reflexivity]. destruct (n =? 0); [reflexivity|exact H2].
  - cbn [app] in AC, AC'. next AC w A. ended AC. rewrite (exec_lui _ _ _ _ _ _ _ _ _ A RR (int_im _)). eexists. split; [reflexivity|].
    split; [intros y Y; apply set_other; exact Y|]. split; [apply set_ram|]. intros c2 H2 Z2. next AC' w2 A2. ended AC'.
    rewrite (exec_imm2 "addiu" (9 * 2 ^ 26) _ _ _ _ _ _ _ _ _ ltac:(apply in_imm; reflexivity) A2 RR' (int_im _)).
    eexists. split; [reflexivity|]. change (9 * 2 ^ 26 / 2 ^ 26) with 9. cbn [immop]. rewrite (set_same _ _ _ NZ) in H2.
    eapply sets_cong; [apply sets_set|]. rewrite H2, u32_plus_l, (s16_id (s16 z)) by apply s16_bounds.
    destruct (hi_value z) as [k E]. apply (u32_cong _ z k). lia.
Qed.
