(** Proofs about the function for the constructors of MIPS objects: it calls every constructor once, in order, and returns. *)

Require Import ZArith Bool List String Ascii Lia ZifyBool.
Require Import Verif.Ints Verif.IntsLemmas Verif.Res Verif.MipsTable Verif.MipsModel Verif.MipsSpec Verif.MipsCpu Verif.MipsMacroModel.
Require Import Verif.MipsExecProofs Verif.MipsMacroProofs.
Require Import Verif.CtorModel Verif.CtorSpec Verif.CtorProofs Verif.CtorRunProofs Verif.CtorShapeProofs.
Import ListNotations.
Local Open Scope string_scope.
Local Open Scope list_scope.
Local Open Scope Z_scope.

(** ** The words of the template *)

Lemma exec_enter c : exec 666763232 c = Some (set c 29 (reg c 29 + -32)). Proof. reflexivity. Qed.
Lemma exec_leave c : exec 666697760 c = Some (set c 29 (reg c 29 + 32)). Proof. reflexivity. Qed.
Lemma exec_next_section c : exec 638582792 c = Some (set c 16 (reg c 16 + 8)). Proof. reflexivity. Qed.
Lemma exec_next c : exec 642908164 c = Some (set c 18 (reg c 18 + 4)). Proof. reflexivity. Qed.
Lemma exec_zero c : exec 0 c = Some c. Proof. reflexivity. Qed.
Definition stores (c : cpu) (b o t : Z) : option cpu := let a := u32 (reg c b + o) in if a mod 4 =? 0 then Some (poke32 c a (reg c t)) else None.
Definition loads (c : cpu) (b o t : Z) : option cpu := let a := u32 (reg c b + o) in if a mod 4 =? 0 then Some (set c t (peek32 c a)) else None.
Lemma exec_sw_ra c : exec 2948530176 c = stores c 29 0 31. Proof. reflexivity. Qed.
Lemma exec_sw_s0 c : exec 2947547140 c = stores c 29 4 16. Proof. reflexivity. Qed.
Lemma exec_sw_s1 c : exec 2947612680 c = stores c 29 8 17. Proof. reflexivity. Qed.
Lemma exec_sw_s2 c : exec 2947678220 c = stores c 29 12 18. Proof. reflexivity. Qed.
Lemma exec_sw_s3 c : exec 2947743760 c = stores c 29 16 19. Proof. reflexivity. Qed.
Lemma exec_lw_start c : exec 2383544320 c = loads c 16 0 18. Proof. reflexivity. Qed.
Lemma exec_lw_end c : exec 2383609860 c = loads c 16 4 19. Proof. reflexivity. Qed.
Lemma exec_lw_f c : exec 2386821120 c = loads c 18 0 4. Proof. reflexivity. Qed.
Lemma exec_lw_ra c : exec 2411659264 c = loads c 29 0 31. Proof. reflexivity. Qed.
Lemma exec_lw_s0 c : exec 2410676228 c = loads c 29 4 16. Proof. reflexivity. Qed.
Lemma exec_lw_s1 c : exec 2410741768 c = loads c 29 8 17. Proof. reflexivity. Qed.
Lemma exec_lw_s2 c : exec 2410807308 c = loads c 29 12 18. Proof. reflexivity. Qed.
Lemma exec_lw_s3 c : exec 2410872848 c = loads c 29 16 19. Proof. reflexivity. Qed.
Lemma step_jalr code pc c : code pc = Some 8452105 -> step code (at_pc pc c) = Some (mkMachine (pc + 4) (reg c 4) (set c 31 (pc + 8))).
Proof. intros H. unfold step, at_pc. cbn [m_pc m_next m_cpu]. rewrite H. reflexivity. Qed.
Lemma step_jr code pc c : code pc = Some 65011720 -> step code (at_pc pc c) = Some (mkMachine (pc + 4) (reg c 31) c).
Proof. intros H. unfold step, at_pc. cbn [m_pc m_next m_cpu]. rewrite H. reflexivity. Qed.

Lemma stores_at c b o t a : reg c b + o = a -> 0 <= a < 2 ^ 32 -> a mod 4 = 0 -> stores c b o t = Some (poke32 c a (reg c t)).
Proof. intros E R M. unfold stores. rewrite E, u32_small by exact R. cbv zeta. rewrite M. reflexivity. Qed.
Lemma loads_at c b o t a : reg c b + o = a -> 0 <= a < 2 ^ 32 -> a mod 4 = 0 -> loads c b o t = Some (set c t (peek32 c a)).
Proof. intros E R M. unfold loads. rewrite E, u32_small by exact R. cbv zeta. rewrite M. reflexivity. Qed.
Lemma peek32_set c r v a : peek32 (set c r v) a = peek32 c a.
Proof. unfold peek32, peek16, peek. rewrite set_ram. reflexivity. Qed.
Lemma branch_op w c t l : branch_if w c = Some (t, l) -> (w_op w =? 0) = false.
Proof. intros H. apply Z.eqb_neq. intros E. unfold branch_if in H. rewrite E in H. discriminate H. Qed.
Lemma peek32_range c a : sane c -> 0 <= peek32 c a < 2 ^ 32.
Proof.
  intros (_ & _ & S). unfold peek32, peek16, peek. pose proof (S (u32 a)). pose proof (S (u32 (a + 1))). pose proof (S (u32 (a + 2))).
  pose proof (S (u32 (a + 2 + 1))). lia.
Qed.

(** ** Data in memory *)

Lemma listed_same c c' : forall fs a, 0 <= a -> a + 4 * Z.of_nat (List.length fs) < 2 ^ 32 ->
  (forall x, within a (4 * Z.of_nat (List.length fs)) x -> ram c' x = ram c x) -> listed c a fs -> listed c' a fs.
Proof.
  induction fs as [|f fs IH]; intros a A1 A2 H L; [exact I|]. cbn [listed List.length] in *. destruct L as [L1 L2].
  rewrite Nat2Z.inj_succ in *. unfold within in *. split.
  - rewrite <- L1. apply peek32_same; [lia|lia|]. intros x X. apply H. unfold within in X. lia.
  - apply IH; [lia|lia| |exact L2]. intros x X. apply H. lia.
Qed.
Lemma tabulated_same c c' : forall l a, 0 <= a -> a + 8 * Z.of_nat (List.length l) < 2 ^ 32 ->
  (forall x, within a (8 * Z.of_nat (List.length l)) x -> ram c' x = ram c x) -> tabulated c a l -> tabulated c' a l.
Proof.
  induction l as [|[st fs] l IH]; intros a A1 A2 H L; [exact I|]. cbn [tabulated List.length] in *. destruct L as (L1 & L2 & L3).
  rewrite Nat2Z.inj_succ in *. unfold within in *. split; [|split].
  - rewrite <- L1. apply peek32_same; [lia|lia|]. intros x X. apply H. unfold within in X. lia.
  - rewrite <- L2. apply peek32_same; [lia|lia|]. intros x X. apply H. unfold within in X. lia.
  - apply IH; [lia|lia| |exact L3]. intros x X. apply H. lia.
Qed.

(** ** The memory the calls see *)

Lemma through_start hidden call b b' l a : (forall x, ~ hidden x -> b' x = b x) -> memory_through hidden call b l a -> memory_through hidden call b' l a.
Proof.
  intros H. destruct l as [|[f c] l]; cbn [memory_through].
  - intros M x X. rewrite H by exact X. apply M, X.
  - intros [M1 M2]. split; [|exact M2]. intros x X. rewrite H by exact X. apply M1, X.
Qed.
Lemma through_app hidden call l2 a : forall l1 b m, memory_through hidden call b l1 m -> memory_through hidden call m l2 a ->
  memory_through hidden call b (l1 ++ l2) a.
Proof.
  induction l1 as [|[f c] l1 IH]; intros b m M1 M2.
  - cbn [app]. apply through_start with (b := m); [|exact M2]. intros x X. symmetry. apply M1, X.
  - cbn [app memory_through] in *. destruct M1 as [A B]. split; [exact A|]. exact (IH _ _ B M2).
Qed.

Section Calls.
  Variable code : Z -> option Z.
  Variable call : Z -> cpu -> cpu.
  Variables base tab outer inner size : Z.
  Hypothesis SH : shape code base tab outer inner size.
  Hypothesis BASE : 0 <= base.
  Variable l0 : list (Z * list Z).
  Hypothesis SIZE : size = 8 * Z.of_nat (List.length l0).
  Variable c0 : cpu.
  Hypothesis SANE : sane c0.
  Hypothesis MEM : in_memory c0 tab l0.
  Let p := reg c0 29 - 32.
  Hypothesis SP : 32 <= reg c0 29.
  Hypothesis SPA : reg c0 29 mod 4 = 0.
  Hypothesis APART : forall x, within p 32 x -> ~ data_of tab l0 x.
  Hypothesis OUTSIDE : forall f, In f (all_of l0) -> code f = None.
  Definition kept (x : Z) : Prop := data_of tab l0 x \/ within p 32 x.
  Hypothesis KEEPS : keeps call (all_of l0) p kept.

  Let P0 : 0 <= p. Proof. unfold p. lia. Qed.
  Let P1 : p + 32 < 2 ^ 32. Proof. unfold p. destruct SANE as (_ & R & _). pose proof (R 29). lia. Qed.
  Let PA : p mod 4 = 0. Proof. unfold p. replace (reg c0 29 - 32) with (reg c0 29 + (-8) * 4) by lia. rewrite Z.mod_add by lia. exact SPA. Qed.
  Let PA4 k : (p + 4 * k) mod 4 = 0. Proof. apply mod4, PA. Qed.

  (** After the registers were saved. *)
  Definition framed (c : cpu) : Prop :=
    peek32 c p = reg c0 31 /\ peek32 c (p + 4) = reg c0 16 /\ peek32 c (p + 8) = reg c0 17 /\ peek32 c (p + 12) = reg c0 18 /\ peek32 c (p + 16) = reg c0 19.
  Lemma save_step d k r : reg d 29 = p -> sane d -> 0 <= k < 8 -> exists d', stores d 29 (4 * k) r = Some d' /\ sane d' /\
    reg d' = reg d /\ peek32 d' (p + 4 * k) = reg d r /\
    (forall j, 0 <= j < 8 -> j <> k -> peek32 d' (p + 4 * j) = peek32 d (p + 4 * j)) /\
    (forall x, ~ within p 32 x -> ram d' x = ram d x).
  Proof.
    intros E (R0 & R1 & R2) K. pose proof P0 as H0. pose proof P1 as H1. exists (poke32 d (p + 4 * k) (reg d r)).
    split; [apply stores_at; [rewrite E; reflexivity|lia|apply PA4]|].
    split; [|split; [|split; [|split]]].
    - split; [exact R0|]. split; [exact R1|]. intros a. rewrite ram_poke32 by lia.
      assert (forall v, 0 <= u8 v < 256) by (intros v; unfold u8; apply Z.mod_pos_bound; lia).
      repeat match goal with |- context [if ?b then _ else _] => destruct b end; auto.
    - reflexivity.
    - apply peek32_poke32; [lia|lia|apply R1].
    - intros j J N. apply peek32_same; [lia|lia|]. intros x X. unfold within in X. apply poke32_away; lia.
    - intros x X. unfold within in X. apply poke32_away; lia.
  Qed.
  Lemma head_run : exists c1, run [666763232; 2948530176; 2947547140; 2947612680; 2947678220; 2947743760] c0 = Some c1 /\ sane c1 /\
    reg c1 29 = p /\ (forall r, r <> 29 -> reg c1 r = reg c0 r) /\ framed c1 /\ (forall x, ~ within p 32 x -> ram c1 x = ram c0 x).
  Proof.
    pose proof P0 as H0. pose proof P1 as H1.
    set (d := set c0 29 (reg c0 29 + -32)).
    assert (D29 : reg d 29 = p) by (unfold d; rewrite set_same by lia; replace (reg c0 29 + -32) with p by (unfold p; lia); apply u32_small; lia).
    assert (DO : forall r, r <> 29 -> reg d r = reg c0 r) by (intros r N; unfold d; apply set_other; exact N).
    assert (DR : ram d = ram c0) by (unfold d; apply set_ram).
    assert (SD : sane d) by (unfold d; apply sane_set, SANE).
    destruct (save_step d 0 31 D29 SD ltac:(lia)) as (d1 & A1 & B1 & C1 & D1 & E1 & F1).
    destruct (save_step d1 1 16 ltac:(rewrite C1; exact D29) B1 ltac:(lia)) as (d2 & A2 & B2 & C2 & D2 & E2 & F2).
    destruct (save_step d2 2 17 ltac:(rewrite C2, C1; exact D29) B2 ltac:(lia)) as (d3 & A3 & B3 & C3 & D3 & E3 & F3).
    destruct (save_step d3 3 18 ltac:(rewrite C3, C2, C1; exact D29) B3 ltac:(lia)) as (d4 & A4 & B4 & C4 & D4 & E4 & F4).
    destruct (save_step d4 4 19 ltac:(rewrite C4, C3, C2, C1; exact D29) B4 ltac:(lia)) as (d5 & A5 & B5 & C5 & D5 & E5 & F5).
    assert (C : reg d5 = reg d) by (rewrite C5, C4, C3, C2, C1; reflexivity).
    exists d5. split; [|split; [|split; [|split; [|split]]]].
    - cbn [run]. rewrite exec_enter. fold d. rewrite exec_sw_ra. change 0 with (4 * 0). rewrite A1.
      rewrite exec_sw_s0. change 4 with (4 * 1). rewrite A2. rewrite exec_sw_s1. change 8 with (4 * 2). rewrite A3.
      rewrite exec_sw_s2. change 12 with (4 * 3). rewrite A4. rewrite exec_sw_s3. change 16 with (4 * 4) at 1. rewrite A5. reflexivity.
    - exact B5.
    - rewrite C. exact D29.
    - intros r N. rewrite C. apply DO, N.
    - unfold framed. replace (peek32 d5 p) with (peek32 d5 (p + 4 * 0)) by (f_equal; lia).
      change (p + 4) with (p + 4 * 1). change (p + 8) with (p + 4 * 2). change (p + 12) with (p + 4 * 3). change (p + 16) with (p + 4 * 4).
      split; [|split; [|split; [|split]]].
      + rewrite E5, E4, E3, E2, D1 by lia. apply DO. lia.
      + rewrite E5, E4, E3, D2 by lia. rewrite C1. apply DO. lia.
      + rewrite E5, E4, D3 by lia. rewrite C2, C1. apply DO. lia.
      + rewrite E5, D4 by lia. rewrite C3, C2, C1. apply DO. lia.
      + rewrite D5 by lia. rewrite C4, C3, C2, C1. apply DO. lia.
    - intros x X. rewrite F5, F4, F3, F2, F1 by exact X. rewrite DR. reflexivity.
  Qed.

  (** What holds from then on: [ch] is the memory once the registers are saved. *)
  Section Loops.
    Variable ch : cpu.
    Hypothesis FRAMED : framed ch.
    Hypothesis AFTER : forall x, ~ within p 32 x -> ram ch x = ram c0 x.
    Definition inv (c : cpu) : Prop :=
      reg c 29 = p /\ reg c 17 = tab + size /\ (forall r, 20 <= r <= 23 \/ r = 28 \/ r = 30 -> reg c r = reg c0 r) /\
      (forall x, kept x -> ram c x = ram ch x).

    Lemma inv_regs c c' : ram c' = ram c -> (forall r, saved r -> r <> 16 -> r <> 18 -> r <> 19 -> reg c' r = reg c r) -> inv c -> inv c'.
    Proof.
      intros E R (I1 & I2 & I3 & I4). unfold inv. rewrite E, !R by (unfold saved; lia).
      split; [exact I1|]. split; [exact I2|]. split; [|exact I4]. intros r H. rewrite R by (unfold saved; lia). apply I3, H.
    Qed.
    Lemma inv_data c x : inv c -> data_of tab l0 x -> ram c x = ram c0 x.
    Proof.
      intros (_ & _ & _ & I4) D. rewrite I4 by (left; exact D). apply AFTER. intros W. exact (APART _ W D).
    Qed.
    Lemma inv_call c f : inv c -> In f (all_of l0) -> inv (call f c) /\ (forall r, saved r -> reg (call f c) r = reg c r).
    Proof.
      intros (I1 & I2 & I3 & I4) F. destruct (KEEPS f c F I1) as [K1 K2]. split; [|exact K1].
      unfold inv. rewrite !K1 by (unfold saved; lia). split; [exact I1|]. split; [exact I2|]. split.
      - intros r H. rewrite K1 by (unfold saved; lia). apply I3, H.
      - intros x X. rewrite K2 by exact X. apply I4, X.
    Qed.

    Definition onwards (m : machine) (evs : list (Z * cpu)) (m' : machine) : Prop :=
      forall l e, runs code call m' l e -> runs code call m (evs ++ l) e.
    Lemma onwards_trans m e1 m1 e2 m2 : onwards m e1 m1 -> onwards m1 e2 m2 -> onwards m (e1 ++ e2) m2.
    Proof. intros A B l e H. rewrite <- app_assoc. apply A, B, H. Qed.

    Section Inner.
      Variables (ws : list Z) (w1 j : Z).
      Hypothesis L : loaded code inner ws.
      Hypothesis J : j = inner + 4 * Z.of_nat (List.length ws).
      Hypothesis RUN : forall c, run ws c = run [2386821120] c.
      Hypothesis K0 : code j = Some 8452105.
      Hypothesis K4 : code (j + 4) = Some 642908164.
      Hypothesis K8 : code (j + 8) = Some w1.
      Hypothesis K12 : code (j + 12) = Some 0.
      Hypothesis BR : forall c, branch_if w1 c = Some (negb (reg c 18 =? reg c 19), false).
      Hypothesis BT : branch_target (j + 8) w1 = Some (u32 inner).
      Hypothesis I0 : 0 <= inner.
      Hypothesis J0 : j + 24 < 2 ^ 32.

      Lemma inner_call c a f : inv c -> In f (all_of l0) -> 0 <= f < 2 ^ 32 -> reg c 18 = a -> 0 <= a -> a + 4 < 2 ^ 32 -> a mod 4 = 0 ->
        peek32 c a = f -> exists c1, onwards (at_pc inner c) [(f, c1)] (at_pc (j + 8) (call f c1)) /\ ram c1 = ram c /\ reg c1 29 = p /\
          inv (call f c1) /\ reg (call f c1) 16 = reg c 16 /\ reg (call f c1) 18 = a + 4 /\ reg (call f c1) 19 = reg c 19.
      Proof.
        intros I F FR R A0 A1 A2 PK.
        set (d := set c 4 f). set (d1 := set d 31 (j + 8)). set (c1 := set d1 18 (reg d1 18 + 4)).
        assert (D4 : reg d 4 = f) by (unfold d; rewrite set_same by lia; apply u32_small, FR).
        assert (D18 : reg d1 18 = a) by (unfold d1, d; rewrite !set_other by lia; exact R).
        assert (C18 : reg c1 18 = a + 4) by (unfold c1; rewrite set_same by lia; rewrite D18; apply u32_small; lia).
        assert (C31 : reg c1 31 = j + 8) by (unfold c1, d1; rewrite set_other, set_same by lia; apply u32_small; lia).
        assert (CO : forall r, r <> 4 -> r <> 18 -> r <> 31 -> reg c1 r = reg c r) by (intros r N1 N2 N3; unfold c1, d1, d; rewrite !set_other by assumption; reflexivity).
        assert (CR : ram c1 = ram c) by (unfold c1, d1, d; rewrite !set_ram; reflexivity).
        assert (IC : inv c1) by (apply inv_regs with (c := c); [exact CR| |exact I]; intros r S N1 N2 N3; apply CO; unfold saved in S; lia).
        destruct (inv_call c1 f IC F) as [IN KR].
        exists c1. split; [|split; [exact CR|]; split; [exact (proj1 IC)|]; split; [exact IN|]].
        - intros l e H. apply straight with (ws := ws) (c' := d); [exact L| |].
          + rewrite RUN. cbn [run]. rewrite exec_lw_f, loads_at with (a := a) by (rewrite ?R; lia). rewrite PK. reflexivity.
          + rewrite <- J. apply jump_slot with (w := 8452105) (d := 642908164) (t := f) (c1 := d1) (c' := c1).
            * exact K0.
            * exact K4.
            * rewrite (step_jalr code j d K0), D4. reflexivity.
            * apply exec_next.
            * cbn [app]. apply runs_call; [apply OUTSIDE, F|]. rewrite C31. exact H.
        - rewrite !KR by (unfold saved; lia). split; [apply CO; lia|]. split; [exact C18|]. apply CO; lia.
      Qed.

      Lemma inner_loop : forall fs c a, fs <> [] -> inv c -> reg c 18 = a -> reg c 19 = a + 4 * Z.of_nat (List.length fs) ->
        0 <= a -> a mod 4 = 0 -> a + 4 * Z.of_nat (List.length fs) < 2 ^ 32 ->
        (forall x, within a (4 * Z.of_nat (List.length fs)) x -> data_of tab l0 x) -> listed c0 a fs -> incl fs (all_of l0) ->
        exists evs c', onwards (at_pc inner c) evs (at_pc (j + 16) c') /\ map fst evs = fs /\ Forall (fun e => reg (snd e) 29 = p) evs /\
          inv c' /\ reg c' 16 = reg c 16 /\ memory_through (within p 32) call (ram c) evs (ram c').
      Proof.
        induction fs as [|f fs IH]; intros c a NE I R18 R19 A0 A2 A1 D LI IN; [contradiction|clear NE].
        assert (LN : Z.of_nat (List.length (f :: fs)) = Z.of_nat (List.length fs) + 1) by (cbn [List.length]; lia). rewrite LN in *.
        destruct LI as [L1 L2].
        assert (F : In f (all_of l0)) by (apply IN; left; reflexivity).
        assert (PK : peek32 c a = f).
        { rewrite <- L1. apply peek32_same; [lia|lia|]. intros x X. apply inv_data; [exact I|]. apply D. unfold within in *. lia. }
        destruct (inner_call c a f I F ltac:(rewrite <- L1; apply peek32_range, SANE) R18 A0 ltac:(lia) A2 PK)
          as (c1 & O & CR & C29 & I' & C16 & C18 & C19).
        set (cc := call f c1) in *.
        assert (NEXT : forall l e, runs code call (at_pc (if negb (a + 4 =? reg c 19) then inner else j + 16) cc) l e -> runs code call (at_pc (j + 8) cc) l e).
        { intros l e H. apply branch_slot with (w := w1) (d := 0) (taken := negb (a + 4 =? reg c 19)) (t := u32 inner) (c' := cc).
          - exact K8.
          - replace (j + 8 + 4) with (j + 12) by lia. exact K12.
          - exact (branch_op _ _ _ _ (BR cc)).
          - rewrite BR, C18, C19. reflexivity.
          - exact BT.
          - apply exec_zero.
          - rewrite u32_small by lia. replace (j + 8 + 8) with (j + 16) by lia. exact H. }
        destruct fs as [|f' fs].
        - exists [(f, c1)], cc. rewrite R19 in NEXT. cbn [List.length Z.of_nat] in NEXT. replace (a + 4 * (0 + 1)) with (a + 4) in NEXT by lia.
          rewrite Z.eqb_refl in NEXT. cbn [negb] in NEXT. split; [intros l e H; apply O, NEXT, H|]. split; [reflexivity|].
          split; [constructor; [exact C29|constructor]|]. split; [exact I'|]. split; [exact C16|].
          cbn [memory_through]. split; [intros x _; rewrite CR; reflexivity|]. intros x _. reflexivity.
        - assert (T : negb (a + 4 =? reg c 19) = true) by (rewrite R19; cbn [List.length]; lia).
          rewrite T in NEXT.
          destruct (IH cc (a + 4)) as (evs & c' & O2 & M2 & S2 & I2 & E2 & T2).
          + discriminate.
          + exact I'.
          + exact C18.
          + rewrite C19, R19. lia.
          + lia.
          + change 4 with (4 * 1) at 1. apply mod4, A2.
          + lia.
          + intros x X. apply D. unfold within in *. lia.
          + exact L2.
          + intros x X. apply IN. right. exact X.
          + exists ((f, c1) :: evs), c'. split; [intros l e H; apply (O (evs ++ l)), NEXT, O2, H|].
            split; [cbn [map fst]; rewrite M2; reflexivity|]. split; [constructor; [exact C29|exact S2]|]. split; [exact I2|].
            split; [rewrite E2; exact C16|]. cbn [memory_through]. split; [intros x _; rewrite CR; reflexivity|]. exact T2.
      Qed.

      Variables (wo : list Z) (w2 : Z).
      Hypothesis LO : loaded code outer wo.
      Hypothesis JO : inner = outer + 4 * Z.of_nat (List.length wo).
      Hypothesis RO : forall c, run wo c = run [2383544320; 2383609860; 638582792] c.
      Hypothesis K16 : code (j + 16) = Some w2.
      Hypothesis K20 : code (j + 20) = Some 0.
      Hypothesis BR2 : forall c, branch_if w2 c = Some (negb (reg c 16 =? reg c 17), false).
      Hypothesis BT2 : branch_target (j + 16) w2 = Some (u32 outer).
      Hypothesis O0 : 0 <= outer.

      Lemma outer_entry c b st n : inv c -> reg c 16 = b -> 0 <= b -> b mod 4 = 0 -> b + 8 < 2 ^ 32 -> 0 <= st -> 0 <= n -> st + 4 * n < 2 ^ 32 ->
        peek32 c b = st -> peek32 c (b + 4) = st + 4 * n ->
        exists c1, onwards (at_pc outer c) [] (at_pc inner c1) /\ ram c1 = ram c /\ inv c1 /\ reg c1 16 = b + 8 /\ reg c1 18 = st /\ reg c1 19 = st + 4 * n.
      Proof.
        intros I R B0 B4 B1 S0 N0 S1 P1' P2.
        set (d := set c 18 st). set (d1 := set d 19 (st + 4 * n)). set (c1 := set d1 16 (b + 8)).
        assert (CR : ram c1 = ram c) by (unfold c1, d1, d; rewrite !set_ram; reflexivity).
        exists c1. split; [|split; [exact CR|split; [|split; [|split]]]].
        - intros l e H. apply straight with (ws := wo) (c' := c1); [exact LO| |rewrite <- JO; exact H].
          rewrite RO. cbn [run]. rewrite exec_lw_start, loads_at with (a := b) by (rewrite ?R; lia). rewrite P1'. fold d.
          assert (D16 : reg d 16 = b) by (unfold d; rewrite set_other by lia; exact R).
          rewrite exec_lw_end, loads_at with (a := b + 4); [| rewrite D16; reflexivity|lia|change 4 with (4 * 1) at 1; apply mod4, B4].
          unfold d at 2. rewrite peek32_set, P2. fold d1.
          assert (D1 : reg d1 16 = b) by (unfold d1; rewrite set_other by lia; exact D16).
          rewrite exec_next_section, D1. reflexivity.
        - apply inv_regs with (c := c); [exact CR| |exact I]. intros r S N1 N2 N3. unfold c1, d1, d. rewrite !set_other by assumption. reflexivity.
        - unfold c1. rewrite set_same by lia. apply u32_small. lia.
        - unfold c1, d1, d. rewrite !set_other, set_same by lia. apply u32_small. lia.
        - unfold c1, d1. rewrite set_other, set_same by lia. apply u32_small. lia.
      Qed.

      Lemma outer_loop : forall l c b, l <> [] -> Forall (fun s => snd s <> []) l -> inv c -> reg c 16 = b -> b + 8 * Z.of_nat (List.length l) = tab + size ->
        0 <= b -> b mod 4 = 0 -> tab + size < 2 ^ 32 ->
        (forall x, within b (8 * Z.of_nat (List.length l)) x -> data_of tab l0 x) -> incl l l0 -> tabulated c0 b l ->
        exists evs c', onwards (at_pc outer c) evs (at_pc (j + 24) c') /\ map fst evs = all_of l /\ Forall (fun e => reg (snd e) 29 = p) evs /\
          inv c' /\ memory_through (within p 32) call (ram c) evs (ram c').
      Proof.
        induction l as [|[st fs] l IH]; intros c b NE FA I R16 BE B0 B4 B1 D IN TB; [contradiction|clear NE].
        assert (LN : Z.of_nat (List.length ((st, fs) :: l)) = Z.of_nat (List.length l) + 1) by (cbn [List.length]; lia). rewrite LN in *.
        destruct TB as (T1 & T2 & T3). pose proof (Forall_inv FA) as F1. pose proof (Forall_inv_tail FA) as F2. cbn [snd] in F1. subst b.
        assert (ME : In (st, fs) l0) by (apply IN; left; reflexivity).
        destruct MEM as (M1 & M2 & M3 & M4 & M5). rewrite Forall_forall in M5. destruct (M5 _ ME) as (S1 & S2 & S3 & S4). cbn [fst snd] in S1, S2, S3, S4.
        assert (Q1 : peek32 c (reg c 16) = st).
        { rewrite <- T1. apply peek32_same; [lia|lia|]. intros x X. apply inv_data; [exact I|]. apply D. unfold within in *. lia. }
        assert (Q2 : peek32 c (reg c 16 + 4) = st + 4 * Z.of_nat (List.length fs)).
        { rewrite <- T2. apply peek32_same; [lia|lia|]. intros x X. apply inv_data; [exact I|]. apply D. unfold within in *. lia. }
        destruct (outer_entry c (reg c 16) st (Z.of_nat (List.length fs)) I eq_refl B0 B4 ltac:(lia) S1 ltac:(lia) S3 Q1 Q2)
          as (c1 & O1 & CR & I1 & C16 & C18 & C19).
        destruct (inner_loop fs c1 st F1 I1 C18 C19 S1 S2 S3) as (evs & c2 & O2 & E2 & P2 & I2 & C216 & MT).
        { intros x X. right. apply Exists_exists. exists (st, fs). split; [exact ME|exact X]. }
        { exact S4. }
        { intros x X. unfold all_of. apply in_flat_map. exists (st, fs). split; [exact ME|exact X]. }
        rewrite CR in MT. rewrite C16 in C216.
        assert (NEXT : forall l e, runs code call (at_pc (if negb (reg c 16 + 8 =? tab + 8 * Z.of_nat (List.length l0)) then outer else j + 24) c2) l e -> runs code call (at_pc (j + 16) c2) l e).
        { intros l' e H. apply branch_slot with (w := w2) (d := 0) (taken := negb (reg c 16 + 8 =? tab + 8 * Z.of_nat (List.length l0))) (t := u32 outer) (c' := c2).
          - exact K16.
          - replace (j + 16 + 4) with (j + 20) by lia. exact K20.
          - exact (branch_op _ _ _ _ (BR2 c2)).
          - rewrite BR2, C216, (proj1 (proj2 I2)). rewrite SIZE. reflexivity.
          - exact BT2.
          - apply exec_zero.
          - rewrite u32_small by lia. replace (j + 16 + 8) with (j + 24) by lia. exact H. }
        destruct l as [|s' l].
        - exists evs, c2. cbn [List.length Z.of_nat] in BE.
          assert (T : negb (reg c 16 + 8 =? tab + 8 * Z.of_nat (List.length l0)) = false) by lia. rewrite T in NEXT.
          split; [intros l' e H; apply (O1 (evs ++ l')), O2, NEXT, H|].
          split; [unfold all_of; cbn [flat_map snd]; rewrite app_nil_r; exact E2|]. split; [exact P2|]. split; [exact I2|exact MT].
        - assert (T : negb (reg c 16 + 8 =? tab + 8 * Z.of_nat (List.length l0)) = true) by (cbn [List.length] in BE; lia). rewrite T in NEXT.
          destruct (IH c2 (reg c 16 + 8)) as (evs' & c' & O3 & E3 & P3 & I3 & MT3).
          + discriminate.
          + exact F2.
          + exact I2.
          + exact C216.
          + lia.
          + lia.
          + change 8 with (4 * 2). apply mod4, B4.
          + lia.
          + intros x X. apply D. unfold within in *. lia.
          + intros x X. apply IN. right. exact X.
          + exact T3.
          + exists (evs ++ evs'), c'. split; [intros l' e H; rewrite <- app_assoc; apply (O1 (evs ++ evs' ++ l')), O2, NEXT, O3, H|].
            split; [rewrite map_app, E2, E3; reflexivity|]. split; [apply Forall_app; split; assumption|]. split; [exact I3|].
            apply through_app with (m := ram c2); assumption.
      Qed.
    End Inner.

    Lemma tail_run c : inv c -> exists c', run [2411659264; 2410676228; 2410741768; 2410807308; 2410872848] c = Some c' /\ ram c' = ram c /\
      reg c' 31 = reg c0 31 /\ reg c' 29 = p /\ forall r, saved r -> r <> 29 -> reg c' r = reg c0 r.
    Proof.
      intros I. pose proof P0 as H0. pose proof P1 as H1. destruct SANE as (_ & RR & _).
      assert (FR : framed c).
      { destruct FRAMED as (F1 & F2 & F3 & F4 & F5). destruct I as (_ & _ & _ & I4). unfold framed.
        assert (S : forall k, 0 <= k < 8 -> peek32 c (p + 4 * k) = peek32 ch (p + 4 * k)).
        { intros k K. apply peek32_same; [lia|lia|]. intros x X. apply I4. right. unfold within in *. lia. }
        pose proof (S 0 ltac:(lia)) as Q0. replace (p + 4 * 0) with p in Q0 by lia.
        change (p + 4) with (p + 4 * 1). change (p + 8) with (p + 4 * 2). change (p + 12) with (p + 4 * 3). change (p + 16) with (p + 4 * 4).
        rewrite Q0, (S 1), (S 2), (S 3), (S 4) by lia. auto. }
      destruct FR as (F1 & F2 & F3 & F4 & F5). destruct I as (I1 & I2 & I3 & I4).
      set (d1 := set c 31 (reg c0 31)). set (d2 := set d1 16 (reg c0 16)). set (d3 := set d2 17 (reg c0 17)).
      set (d4 := set d3 18 (reg c0 18)). set (d5 := set d4 19 (reg c0 19)).
      exists d5. split; [|split; [|split; [|split]]].
      - cbn [run]. rewrite exec_lw_ra, loads_at with (a := p) by (rewrite ?I1; lia). rewrite F1. fold d1.
        assert (A1 : reg d1 29 = p) by (unfold d1; rewrite set_other by lia; exact I1).
        rewrite exec_lw_s0, loads_at with (a := p + 4 * 1) by (rewrite ?A1; lia || apply PA4). 
        assert (G1 : peek32 d1 (p + 4 * 1) = reg c0 16) by (unfold d1; rewrite !peek32_set; exact F2). rewrite G1. fold d2.
        assert (A2 : reg d2 29 = p) by (unfold d2; rewrite set_other by lia; exact A1).
        rewrite exec_lw_s1, loads_at with (a := p + 4 * 2) by (rewrite ?A2; lia || apply PA4). 
        assert (G2 : peek32 d2 (p + 4 * 2) = reg c0 17) by (unfold d2, d1; rewrite !peek32_set; exact F3). rewrite G2. fold d3.
        assert (A3 : reg d3 29 = p) by (unfold d3; rewrite set_other by lia; exact A2).
        rewrite exec_lw_s2, loads_at with (a := p + 4 * 3) by (rewrite ?A3; lia || apply PA4). 
        assert (G3 : peek32 d3 (p + 4 * 3) = reg c0 18) by (unfold d3, d2, d1; rewrite !peek32_set; exact F4). rewrite G3. fold d4.
        assert (A4 : reg d4 29 = p) by (unfold d4; rewrite set_other by lia; exact A3).
        rewrite exec_lw_s3, loads_at with (a := p + 4 * 4) by (rewrite ?A4; lia || apply PA4).
        assert (G4 : peek32 d4 (p + 4 * 4) = reg c0 19) by (unfold d4, d3, d2, d1; rewrite !peek32_set; exact F5). rewrite G4. reflexivity.
      - unfold d5, d4, d3, d2, d1. rewrite !set_ram. reflexivity.
      - unfold d5, d4, d3, d2, d1. rewrite !set_other, set_same by lia. apply u32_small, RR.
      - unfold d5, d4, d3, d2, d1. rewrite !set_other by lia. exact I1.
      - intros r S N. unfold d5, d4, d3, d2, d1. unfold saved in S.
        destruct (Z.eq_dec r 19) as [->|N1]; [rewrite set_same by lia; apply u32_small, RR|rewrite set_other by exact N1].
        destruct (Z.eq_dec r 18) as [->|N2]; [rewrite set_same by lia; apply u32_small, RR|rewrite set_other by exact N2].
        destruct (Z.eq_dec r 17) as [->|N3]; [rewrite set_same by lia; apply u32_small, RR|rewrite set_other by exact N3].
        destruct (Z.eq_dec r 16) as [->|N4]; [rewrite set_same by lia; apply u32_small, RR|rewrite set_other by exact N4].
        rewrite set_other by lia. apply I3. lia.
    Qed.
  End Loops.

  Theorem shape_calls : l0 <> [] -> Forall (fun s => snd s <> []) l0 ->
    exists evs c', runs code call (at_pc base c0) evs (at_pc (reg c0 31) c') /\ map fst evs = all_of l0 /\ Forall (fun e => reg (snd e) 29 = p) evs /\
      (forall r, saved r -> reg c' r = reg c0 r) /\ memory_through (within p 32) call (ram c0) evs (ram c').
  Proof.
    intros NE NS. pose proof P0 as H0. pose proof P1 as H1.
    destruct SH as [B4 (wh & H_L & H_O & H_R) (wo & O_L & O_I & O_R) (ws & w1 & w2 & wt & j & q & L & J & RUN & K0 & K4 & K8 & K12 & BR & BT & K16 & K20 & BR2 & BT2 & LT & Q & RT & KQ & KQ4 & TQ)].
    destruct MEM as (M1 & M2 & M3 & M4 & M5).
    destruct head_run as (c1 & A1 & A2 & A3 & A4 & A5 & A6).
    destruct (H_R c0 c1 A2 A1) as (c2 & B1 & B2 & B3 & B5 & B6).
    rewrite u32_small in B2, B3 by lia.
    assert (FR : framed c2) by (unfold framed in *; assert (E : forall a, peek32 c2 a = peek32 c1 a) by (intros a; unfold peek32, peek16, peek; rewrite B5; reflexivity); rewrite !E; exact A5).
    assert (AFT : forall x, ~ within p 32 x -> ram c2 x = ram c0 x) by (intros x X; rewrite B5; apply A6, X).
    assert (I2 : inv c2 c2).
    { unfold inv. rewrite B3, B6, A3 by lia. split; [reflexivity|]. split; [reflexivity|]. split; [|reflexivity].
      intros r H. rewrite B6, A4 by lia. reflexivity. }
    destruct (outer_loop c2 AFT ws w1 j L J RUN K0 K4 K8 K12 BR BT ltac:(lia) ltac:(lia) wo w2 O_L O_I O_R K16 K20 BR2 BT2 ltac:(lia)
                l0 c2 tab NE NS I2 B2 ltac:(lia) M1 M2 ltac:(lia)) as (evs & c3 & O3 & E3 & P3 & I3 & MT).
    { intros x X. left. exact X. }
    { intros x X. exact X. }
    { exact M4. }
    destruct (tail_run c2 FR AFT c3 I3) as (c4 & T1 & T2 & T3 & T4 & T5).
    set (c5 := set c4 29 (p + 32)).
    exists evs, c5. split; [|split; [exact E3|split; [exact P3|split]]].
    - apply straight with (ws := wh) (c' := c2); [exact H_L|exact B1|]. rewrite <- H_O.
      rewrite <- (app_nil_r evs). apply O3.
      apply straight with (ws := wt) (c' := c4); [exact LT|rewrite RT; exact T1|]. rewrite <- Q.
      apply jump_slot with (w := 65011720) (d := 666697760) (t := reg c0 31) (c1 := c4) (c' := c5).
      + exact KQ.
      + exact KQ4.
      + rewrite (step_jr code q c4 KQ), T3. reflexivity.
      + rewrite exec_leave, T4. reflexivity.
      + apply runs_stop.
    - intros r S. unfold c5. destruct (Z.eq_dec r 29) as [->|N].
      + rewrite set_same by lia. rewrite u32_small by lia. unfold p. lia.
      + rewrite set_other by exact N. apply T5; assumption.
    - unfold c5. rewrite set_ram, T2. apply through_start with (b := ram c2); [|exact MT]. intros x X. symmetry. apply AFT, X.
  Qed.
End Calls.

(** ** Without a section *)
Lemma none_returns depth s ignore base tab outer inner ws ms s' call c :
  mips_stub depth s ignore base tab outer inner 0 = ROk (ws, ms, s') ->
  exists calls c', runs (code_at 4 base ws) call (at_pc base c) calls (at_pc (reg c 31) c') /\ calls = [] /\ c' = c.
Proof.
  unfold mips_stub. cbn [mips_template]. intros H.
  destruct (place_fixed _ _ _ _ _ _ _ _ _ _ _ _ jr_fixed H) as (pre & ws2 & s1 & -> & PRE & _ & H2 & S1).
  destruct (place_settled _ _ _ _ _ _ _ _ _ _ _ _ nop_fixed (S1 eq_refl) H2) as (ws3 & s2 & -> & H3 & _).
  apply place_nil in H3. destruct H3 as [-> _].
  assert (L : loaded (code_at 4 base (pre ++ [65011720] ++ [0] ++ [])) base (pre ++ [65011720] ++ [0] ++ [])) by apply loaded_code.
  set (code := code_at 4 base (pre ++ [65011720] ++ [0] ++ [])) in *. clearbody code.
  apply loaded_app in L. destruct L as [L1 L2]. apply loaded_app in L2. destruct L2 as [L2 L3]. apply loaded_app in L3. destruct L3 as [L3 _].
  apply loaded_one in L2. apply loaded_one in L3.
  exists [], c. split; [|split; reflexivity].
  apply straight with (ws := pre) (c' := c); [exact L1|destruct PRE as [-> | ->]; reflexivity|].
  apply jump_slot with (w := 65011720) (d := 0) (t := reg c 31) (c1 := c) (c' := c).
  - exact L2.
  - exact L3.
  - apply step_jr, L2.
  - apply exec_zero.
  - apply runs_stop.
Qed.
