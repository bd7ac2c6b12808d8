(** Proofs about the function for the constructors of MIPS objects: where its instructions are, and that it calls every
    constructor once. *)

Require Import ZArith Bool List String Ascii Lia ZifyBool.
Require Import Verif.Ints Verif.IntsLemmas Verif.Res Verif.MipsTable Verif.MipsModel Verif.MipsSpec Verif.MipsCpu Verif.MipsMacroModel.
Require Import Verif.MipsExecProofs Verif.MipsMacroProofs.
Require Import Verif.CtorModel Verif.CtorSpec Verif.CtorProofs.
Import ListNotations.
Local Open Scope string_scope.
Local Open Scope list_scope.
Local Open Scope Z_scope.

Lemma place_line depth s ignore pc name ps l ws ms s' : mips_place depth s ignore pc (Line name ps :: l) = ROk (ws, ms, s') ->
  exists o ws', mips_line depth s ignore pc name ps = ROk o /\ ws = x_words o ++ ws' /\
    mips_place depth (x_state o) ignore (pc + 4 * Z.of_nat (List.length (x_words o))) l = ROk (ws', ms, s').
Proof.
  cbn [mips_place]. intros H. apply bind_ok in H. destruct H as (o & A & H). apply bind_ok in H. destruct H as ([[w m] t] & B & H).
  apply ok_eq in H. injection H as <- <- <-. exists o, w. auto.
Qed.
Lemma place_mark depth s ignore pc x l ws ms s' : mips_place depth s ignore pc (Mark x :: l) = ROk (ws, ms, s') ->
  exists ms', ms = (x, pc) :: ms' /\ mips_place depth s ignore pc l = ROk (ws, ms', s').
Proof.
  cbn [mips_place]. intros H. apply bind_ok in H. destruct H as ([[w m] t] & B & H). apply ok_eq in H. injection H as <- <- <-.
  exists m. auto.
Qed.

(** Lines whose words do not depend on their position. *)
Definition fixed_entry : Type := string * list piece * (Z * bool).
Definition entry_line (x : fixed_entry) : ctor_item piece := Line (fst (fst x)) (snd (fst x)).
Definition entry_fixed (x : fixed_entry) : Prop := forall depth s ignore pc out,
  mips_line depth s ignore pc (fst (fst x)) (snd (fst x)) = ROk out ->
  one_word out (fst (snd x)) /\ (settled s -> x_words out = [fst (snd x)]) /\ (snd (snd x) = false -> settled (x_state out)) /\ pc mod 4 = 0.
Definition entry_word (x : fixed_entry) : Z := fst (snd x).
Lemma run_words o w ws c : one_word o w -> run (x_words o ++ ws) c = run (w :: ws) c.
Proof. intros H. rewrite run_app, (run_one _ _ _ H). reflexivity. Qed.
Lemma block_placed depth ignore : forall bl s pc rest ws ms s', Forall entry_fixed bl ->
  mips_place depth s ignore pc (map entry_line bl ++ rest) = ROk (ws, ms, s') ->
  exists ws1 ws2 s1, ws = ws1 ++ ws2 /\ (forall c, run ws1 c = run (map entry_word bl) c) /\
    mips_place depth s1 ignore (pc + 4 * Z.of_nat (List.length ws1)) rest = ROk (ws2, ms, s') /\
    (match bl with [] => settled s | _ => snd (snd (last bl ("", [], (0, true)))) = false end -> settled s1) /\ (bl <> [] -> pc mod 4 = 0) /\
    (List.length ws1 <= 2 * List.length bl)%nat.
Proof.
  induction bl as [|x bl IH]; intros s pc rest ws ms s' F P.
  - exists [], ws, s. cbn [map app List.length Z.of_nat] in P |- *. rewrite Z.mul_0_r, Z.add_0_r.
    split; [reflexivity|]. split; [reflexivity|]. split; [exact P|]. split; [auto|]. split; [congruence|cbn; lia].
  - pose proof (Forall_inv F) as F1. apply Forall_inv_tail in F. cbn [map app] in P. unfold entry_line at 1 in P.
    apply place_line in P. destruct P as (o & ws' & L & -> & P).
    destruct (F1 _ _ _ _ _ L) as (OW & _ & ST & AL).
    destruct (IH _ _ _ _ _ _ F P) as (ws1 & ws2 & s1 & -> & R & P' & ST' & _ & LEN).
    exists (x_words o ++ ws1), ws2, s1. split; [apply app_assoc|]. split.
    { intros c. rewrite (run_words _ _ _ _ OW). cbn [map run]. destruct (exec (entry_word x) c) as [c1|] eqn:E;
      change (fst (snd x)) with (entry_word x); rewrite E; [apply R|reflexivity]. }
    split. { rewrite app_length, Nat2Z.inj_add. replace (pc + 4 * (Z.of_nat (List.length (x_words o)) + Z.of_nat (List.length ws1)))
      with (pc + 4 * Z.of_nat (List.length (x_words o)) + 4 * Z.of_nat (List.length ws1)) by lia. exact P'. }
    split; [|split; [intros _; exact AL|]].
    2: { rewrite app_length. cbn [List.length]. destruct OW as [-> | ->]; cbn [List.length]; clear - LEN; lia. }
    destruct bl as [|y bl]; [|exact ST']. cbn [last]. intros H. apply ST', ST, H.
Qed.

(** Where the instructions are. *)
Record shape (code : Z -> option Z) (base tab outer inner size : Z) : Prop := mkShape {
  sh_base : base mod 4 = 0;
  sh_head : exists ws, loaded code base ws /\ outer = base + 4 * Z.of_nat (List.length ws) /\
    forall c c1, sane c1 -> run [666763232; 2948530176; 2947547140; 2947612680; 2947678220; 2947743760] c = Some c1 ->
    exists c', run ws c = Some c' /\ reg c' 16 = u32 tab /\ reg c' 17 = u32 (tab + size) /\ ram c' = ram c1 /\
      forall r, r <> 16 -> r <> 17 -> reg c' r = reg c1 r;
  sh_outer : exists ws, loaded code outer ws /\ inner = outer + 4 * Z.of_nat (List.length ws) /\
    forall c, run ws c = run [2383544320; 2383609860; 638582792] c;
  sh_inner : exists ws w1 w2 wt j q, loaded code inner ws /\ j = inner + 4 * Z.of_nat (List.length ws) /\
    (forall c, run ws c = run [2386821120] c) /\
    code j = Some 8452105 /\ code (j + 4) = Some 642908164 /\
    code (j + 8) = Some w1 /\ code (j + 12) = Some 0 /\
    (forall c, branch_if w1 c = Some (negb (reg c 18 =? reg c 19), false)) /\ branch_target (j + 8) w1 = Some (u32 inner) /\
    code (j + 16) = Some w2 /\ code (j + 20) = Some 0 /\
    (forall c, branch_if w2 c = Some (negb (reg c 16 =? reg c 17), false)) /\ branch_target (j + 16) w2 = Some (u32 outer) /\
    loaded code (j + 24) wt /\ q = j + 24 + 4 * Z.of_nat (List.length wt) /\
    (forall c, run wt c = run [2411659264; 2410676228; 2410741768; 2410807308; 2410872848] c) /\
    code q = Some 65011720 /\ code (q + 4) = Some 666697760 /\ tab = q + 8 }.

Lemma entry_of name ps w ld : fixed_is name ps w ld = true -> entry_fixed (name, ps, (w, ld)).
Proof. intros F depth s ignore pc out L. exact (fixed_line _ _ _ _ _ _ _ _ _ L F). Qed.
Definition head_block : list fixed_entry := [
  ("addiu", [gpr "sp"; PSym ","; val (-32)], (666763232, false));
  ("sw", mem "ra" 0 "sp", (2948530176, false)); ("sw", mem "s0" 4 "sp", (2947547140, false));
  ("sw", mem "s1" 8 "sp", (2947612680, false)); ("sw", mem "s2" 12 "sp", (2947678220, false)); ("sw", mem "s3" 16 "sp", (2947743760, false))].
Definition outer_block : list fixed_entry := [
  ("lw", mem0 "s2" "s0", (2383544320, true)); ("lw", mem "s3" 4 "s0", (2383609860, true)); ("addiu", [gpr "s0"; PSym ","; val 8], (638582792, false))].
Definition call_block : list fixed_entry := [("lw", mem0 "a0" "s2", (2386821120, true))].
Definition tail_block : list fixed_entry := [
  ("lw", mem "ra" 0 "sp", (2411659264, true)); ("lw", mem "s0" 4 "sp", (2410676228, true)); ("lw", mem "s1" 8 "sp", (2410741768, true));
  ("lw", mem "s2" 12 "sp", (2410807308, true)); ("lw", mem "s3" 16 "sp", (2410872848, true))].
Ltac fixed_entries := repeat (apply Forall_cons; [apply entry_of; vm_compute; reflexivity|]); apply Forall_nil.
Lemma head_fixed : Forall entry_fixed head_block. Proof. fixed_entries. Qed.
Lemma outer_fixed : Forall entry_fixed outer_block. Proof. fixed_entries. Qed.
Lemma call_fixed : Forall entry_fixed call_block. Proof. fixed_entries. Qed.
Lemma tail_fixed : Forall entry_fixed tail_block. Proof. fixed_entries. Qed.
Lemma jalr_fixed : entry_fixed ("jalr", [gpr "a0"], (8452105, false)). Proof. apply entry_of. vm_compute. reflexivity. Qed.
Lemma next_fixed : entry_fixed ("addiu", [gpr "s2"; PSym ","; val 4], (642908164, false)). Proof. apply entry_of. vm_compute. reflexivity. Qed.
Lemma nop_fixed : entry_fixed ("nop", [], (0, false)). Proof. apply entry_of. vm_compute. reflexivity. Qed.
Lemma jr_fixed : entry_fixed ("jr", [gpr "ra"], (65011720, false)). Proof. apply entry_of. vm_compute. reflexivity. Qed.
Lemma leave_fixed : entry_fixed ("addiu", [gpr "sp"; PSym ","; val 32], (666697760, false)). Proof. apply entry_of. vm_compute. reflexivity. Qed.

Lemma place_nil depth s ignore pc ws ms s' : mips_place depth s ignore pc [] = ROk (ws, ms, s') -> ws = [] /\ ms = [].
Proof. intros H. apply ok_eq in H. injection H as <- <- <-. auto. Qed.
Lemma place_block depth ignore bl s pc rest ws ms s' : Forall entry_fixed bl -> 
  mips_place depth s ignore pc (map entry_line bl ++ rest) = ROk (ws, ms, s') ->
  exists ws1 ws2 s1, ws = ws1 ++ ws2 /\ (forall c, run ws1 c = run (map entry_word bl) c) /\
    mips_place depth s1 ignore (pc + 4 * Z.of_nat (List.length ws1)) rest = ROk (ws2, ms, s') /\
    (match bl with [] => settled s | _ => snd (snd (last bl ("", [], (0, true)))) = false end -> settled s1) /\ (bl <> [] -> pc mod 4 = 0) /\
    (List.length ws1 <= 2 * List.length bl)%nat.
Proof. apply block_placed. Qed.
(** One line of fixed words, up to a nop in front of it. *)
Lemma place_fixed depth ignore name ps w ld s pc rest ws ms s' : entry_fixed (name, ps, (w, ld)) ->
  mips_place depth s ignore pc (Line name ps :: rest) = ROk (ws, ms, s') ->
  exists pre ws2 s1, ws = pre ++ [w] ++ ws2 /\ (pre = [] \/ pre = [0]) /\ (settled s -> pre = []) /\
    mips_place depth s1 ignore (pc + 4 * Z.of_nat (List.length pre) + 4) rest = ROk (ws2, ms, s') /\ (ld = false -> settled s1).
Proof.
  intros F P. apply place_line in P. destruct P as (o & ws' & L & -> & P). destruct (F _ _ _ _ _ L) as (OW & ONE & ST & _). cbn [fst snd] in *.
  destruct OW as [E|E]; rewrite E in P |- *.
  - exists [], ws', (x_state o). cbn [List.length Z.of_nat app] in P |- *. rewrite Z.mul_0_r, Z.add_0_r.
    do 3 (split; [auto|]). split; [exact P|exact ST].
  - exists [0], ws', (x_state o). split; [reflexivity|]. split; [auto|]. split; [intros H; rewrite E in ONE; discriminate (ONE H)|].
    split; [|exact ST]. cbn [List.length] in P |- *. replace (pc + 4 * Z.of_nat 1 + 4) with (pc + 4 * Z.of_nat 2) by lia. exact P.
Qed.
Lemma place_settled depth ignore name ps w ld s pc rest ws ms s' : entry_fixed (name, ps, (w, ld)) -> settled s ->
  mips_place depth s ignore pc (Line name ps :: rest) = ROk (ws, ms, s') ->
  exists ws2 s1, ws = [w] ++ ws2 /\ mips_place depth s1 ignore (pc + 4) rest = ROk (ws2, ms, s') /\ (ld = false -> settled s1).
Proof.
  intros F ST P. destruct (place_fixed _ _ _ _ _ _ _ _ _ _ _ _ F P) as (pre & ws2 & s1 & -> & _ & N & P' & S1). rewrite (N ST) in *.
  exists ws2, s1. cbn [List.length Z.of_nat app] in P' |- *. rewrite Z.mul_0_r, Z.add_0_r in P'. auto.
Qed.
Lemma no_macro_bne p q z : In (p, q) [("s2", "s3"); ("s0", "s1")] ->
  find_macro mipsMacros "bne" [gpr p; PSym ","; gpr q; PSym ","; val z] = None.
Proof. intros [E|[E|[]]]; injection E as <- <-; vm_compute; reflexivity. Qed.
Lemma no_load_bne p q z r : In (p, q) [("s2", "s3"); ("s0", "s1")] ->
  match mips_parse r "bne" [gpr p; PSym ","; gpr q; PSym ","; val z] with Some (o, _) => mhas o MO_DELAYRT = false | None => True end.
Proof. intros [E|[E|[]]]; injection E as <- <-; destruct r; vm_compute; reflexivity. Qed.
Lemma place_branch depth ignore p q a b z s pc rest ws ms s' : In (p, q) [("s2", "s3"); ("s0", "s1")] ->
  mips_place depth s ignore pc (Line "bne" [gpr p; PSym ","; gpr q; PSym ","; val z] :: rest) = ROk (ws, ms, s') ->
  register Gpr (gpr p) = Some a -> register Gpr (gpr q) = Some b -> settled s -> z mod 4 = 0 -> s32 (z - pc - 4) <> 0x20000 ->
  exists w ws2 s1, ws = [w] ++ ws2 /\ (forall c, branch_if w c = Some (negb (reg c a =? reg c b), false)) /\ branch_target pc w = Some (u32 z) /\
    mips_place depth s1 ignore (pc + 4) rest = ROk (ws2, ms, s') /\ settled s1.
Proof.
  intros N P RA RB ST AL NE. apply place_line in P. destruct P as (o & ws' & L & -> & P).
  destruct (branch_line _ _ _ _ _ _ _ _ _ _ L (no_macro_bne _ _ _ N) (fun r => no_load_bne _ _ _ r N) RA RB ST AL NE) as (w & W & B & T & S1).
  rewrite W in P |- *. exists w, ws', (x_state o). do 3 (split; [auto|]). split; [exact P|exact S1].
Qed.
