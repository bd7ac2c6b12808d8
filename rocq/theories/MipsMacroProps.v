(** MIPS macro properties: C43 (hi and lo), C44 (li), C45 (loads and stores of an address), C46 (set
    macros), C47 (branch macros), C48 (rotations and absolute values), C49 (unaligned accesses).

    A line is expanded up to the nesting [depth]; the theorems hold for every bound.  The words are run
    on the machine of MipsCpu. *)

Require Import ZArith Bool List String Ascii Lia.
Require Import Verif.Ints Verif.Res Verif.MipsTable Verif.MipsModel Verif.MipsSpec Verif.MipsCpu Verif.MipsMacroModel Verif.MipsMacroSpec.
Require Import Verif.MipsExecProofs Verif.MipsMacroProofs Verif.MipsAccessProofs Verif.MipsUnalignedProofs Verif.MipsCompareProofs Verif.MipsRotateProofs Verif.MipsHiLoProofs.
Require Verif.ExprModel Verif.ExprFuncModel.
Import ListNotations.
Local Open Scope string_scope.
Local Open Scope list_scope.
Local Open Scope Z_scope.

Definition xr (s : string) : piece := PName false s VBad.
Definition xi (z : Z) : piece := PExpr (VInt z 0).
Definition xs (a : mips_arch) : mips_state := mkMips a false false 0 false.
(** A machine for the examples: register [r] holds [r * 0x01020304], every byte is its address. *)
Definition xcpu : cpu := mkCpu (fun r => u32 (r * 0x01020304)) (fun a => u8 a).
Lemma xcpu_sane : sane xcpu.
Proof. split; [reflexivity|]. split; intros; apply Z.mod_pos_bound; reflexivity. Qed.

(** * C43 *)

(** hi() and lo() of an integer, with any functions defined by the user: a 16-bit number and a signed
    16-bit number which together give the integer modulo 2^32. *)
Theorem C43_hi_lo : forall users st e x ms,
  let eval := ExprModel.eval (ExprFuncModel.make_registry ExprFuncModel.mips_functions users) st in
  eval e = ExprModel.OVal (ExprModel.VInt x) ms ->
  exists h l, eval (ExprModel.ECall "hi" [e]) = ExprModel.OVal (ExprModel.VInt h) ms /\
    eval (ExprModel.ECall "lo" [e]) = ExprModel.OVal (ExprModel.VInt l) ms /\
    0 <= h < 2 ^ 16 /\ - 2 ^ 15 <= l < 2 ^ 15 /\ (h * 2 ^ 16 + l) mod 2 ^ 32 = x mod 2 ^ 32.
Proof. exact hi_lo_eval. Qed.
Print Assumptions C43_hi_lo.
(** [lui r,h] and [addiu r,r,l] with such numbers leave the integer in the register. *)
Theorem C43_lui_addiu : forall s s' ignore ignore' pc pc' p q p1 p2 q2 n x h l out out' c,
  0 <= h < 2 ^ 16 -> - 2 ^ 15 <= l < 2 ^ 15 -> (h * 2 ^ 16 + l) mod 2 ^ 32 = x mod 2 ^ 32 ->
  mips_assemble s ignore pc "lui" [p; PSym ","; q] = ROk out -> register Gpr p = Some n -> integer q = Some h ->
  mips_assemble s' ignore' pc' "addiu" [p1; PSym ","; p2; PSym ","; q2] = ROk out' -> register Gpr p1 = Some n -> register Gpr p2 = Some n ->
  integer q2 = Some l -> n <> 0 ->
  exists c', run (x_words out ++ x_words out') c = Some c' /\ reg c' n = x mod 2 ^ 32 /\ (forall r, r <> n -> reg c' r = reg c r) /\ ram c' = ram c.
Proof. exact lui_addiu. Qed.
Print Assumptions C43_lui_addiu.
(** [lui b,h] and a load or store with the offset [l] access the integer as an address. *)
Theorem C43_lui_access : forall s s' ignore ignore' pc pc' name t p q p1 q1 r1 n d x h l out out' c,
  In (name, t) transfers -> t_cop t = false ->
  0 <= h < 2 ^ 16 -> - 2 ^ 15 <= l < 2 ^ 15 -> (h * 2 ^ 16 + l) mod 2 ^ 32 = x mod 2 ^ 32 ->
  mips_assemble s ignore pc "lui" [p; PSym ","; q] = ROk out -> register Gpr p = Some n -> integer q = Some h -> n <> 0 ->
  mips_assemble s' ignore' pc' name [p1; PSym ","; q1; PSym "("; r1; PSym ")"] = ROk out' -> register Gpr p1 = Some d ->
  integer q1 = Some l -> register Gpr r1 = Some n ->
  exists c' w, run (x_words out) c = Some c' /\ (x_words out' = [w] \/ x_words out' = [0; w]) /\
    access_of w c' = Some (t_code t, d, x mod 2 ^ 32).
Proof. exact lui_access. Qed.
Print Assumptions C43_lui_access.
Example C43_ex : forall users st,
  ExprModel.eval (ExprFuncModel.make_registry ExprFuncModel.mips_functions users) st (ExprModel.ECall "hi" [ExprModel.EInt 0x8000C004])
    = ExprModel.OVal (ExprModel.VInt 0x8001) [] /\
  ExprModel.eval (ExprFuncModel.make_registry ExprFuncModel.mips_functions users) st (ExprModel.ECall "lo" [ExprModel.EInt 0x8000C004])
    = ExprModel.OVal (ExprModel.VInt (-0x3FFC)) [] /\
  (exists out, mips_assemble (xs PSX) false 0x80010000 "lui" [xr "a0"; PSym ","; xi 0x8001] = ROk out /\ x_words out = [0x3C048001]) /\
  (exists out, mips_assemble (xs PSX) false 0x80010004 "addiu" [xr "a0"; PSym ","; xr "a0"; PSym ","; xi (-0x3FFC)] = ROk out /\ x_words out = [0x2484C004]).
Proof.
  intros users st. split; [reflexivity|]. split; [reflexivity|]. split; eexists; (split; [vm_compute; reflexivity|vm_compute; reflexivity]).
Qed.

(** * C44 *)

(** li and la leave the number, modulo 2^32, in the register and change nothing else. *)
Theorem C44_li : forall depth s ignore pc name p q n z out c, In name ["li"; "la"] ->
  mips_line depth s ignore pc name [p; PSym ","; q] = ROk out ->
  register Gpr p = Some n -> integer q = Some z -> sane c -> n <> 0 ->
  exists c', run (x_words out) c = Some c' /\ reg c' n = z mod 2 ^ 32 /\ (forall r, r <> n -> reg c' r = reg c r) /\ ram c' = ram c.
Proof. exact li_whole. Qed.
Print Assumptions C44_li.
(** The halves: li.u, any code that keeps the register, li.l. *)
Theorem C44_halves : forall depth depth' s s' ignore ignore' pc pc' name name' p q p' q' n z out out' c,
  In (name, name') [("li.u", "li.l"); ("la.u", "la.l")] ->
  mips_line depth s ignore pc name [p; PSym ","; q] = ROk out ->
  mips_line depth' s' ignore' pc' name' [p'; PSym ","; q'] = ROk out' ->
  register Gpr p = Some n -> integer q = Some z -> register Gpr p' = Some n -> integer q' = Some z -> n <> 0 ->
  exists c1, run (x_words out) c = Some c1 /\ (forall r, r <> n -> reg c1 r = reg c r) /\ ram c1 = ram c /\
  forall c2, reg c2 n = reg c1 n -> sane c2 ->
  exists c3, run (x_words out') c2 = Some c3 /\ reg c3 n = z mod 2 ^ 32 /\ (forall r, r <> n -> reg c3 r = reg c2 r) /\ ram c3 = ram c2.
Proof. exact li_parts. Qed.
Print Assumptions C44_halves.
Example C44_ex :
  (exists out, mips_line 1 (xs N64) false 0x80000000 "li" [xr "a0"; PSym ","; xi 0x8000C004] = ROk out /\ x_words out = [0x3C048001; 0x2484C004]) /\
  (exists out, mips_line 1 (xs N64) false 0x80000000 "li" [xr "a0"; PSym ","; xi (-5)] = ROk out /\ x_words out = [0x2404FFFB]) /\
  (exists out, mips_line 1 (xs N64) false 0x80000000 "li.u" [xr "a0"; PSym ","; xi 0x8000C004] = ROk out /\ x_words out = [0x3C048001]) /\
  (exists out, mips_line 1 (xs N64) false 0x80000000 "li.l" [xr "a0"; PSym ","; xi 0x8000C004] = ROk out /\ x_words out = [0x2484C004]) /\
  register Gpr (xr "a0") = Some 4 /\ integer (xi 0x8000C004) = Some 0x8000C004 /\ sane xcpu.
Proof.
  split; [eexists; split; vm_compute; reflexivity|]. split; [eexists; split; vm_compute; reflexivity|].
  split; [eexists; split; vm_compute; reflexivity|]. split; [eexists; split; vm_compute; reflexivity|].
  split; [reflexivity|]. split; [reflexivity|]. exact xcpu_sane.
Qed.

(** * C45 *)

(** A load or store of an address: the last word makes the access, with the right operation, the right
    register and the address; the words before it change only the scratch register (the one that is
    loaded, or the assembler temporary).  Missing: a load of r0 (see below), and the value of a store
    of the assembler temporary itself. *)
Theorem C45_access_partial : forall depth s ignore pc name t p q n z out c, In (name, t) transfers ->
  mips_line depth s ignore pc name [p; PSym ","; q] = ROk out ->
  transferred t p = Some n -> integer q = Some z -> sane c -> scratch t n <> 0 ->
  exists pre w c1, x_words out = pre ++ [w] /\ run pre c = Some c1 /\ access_of w c1 = Some (t_code t, n, u32 z) /\
    (forall r, r <> scratch t n -> reg c1 r = reg c r) /\ ram c1 = ram c.
Proof. exact access_line. Qed.
Print Assumptions C45_access_partial.
(** An aligned load of up to 32 bits overwrites only its register, with the value at the address. *)
Theorem C45_load_partial : forall depth s ignore pc name code p q n z out c v, In (name, load code) transfers ->
  mips_line depth s ignore pc name [p; PSym ","; q] = ROk out ->
  register Gpr p = Some n -> integer q = Some z -> sane c -> n <> 0 -> loaded code c (u32 z) = Some v ->
  exists c', run (x_words out) c = Some c' /\ reg c' n = u32 v /\ (forall r, r <> n -> reg c' r = reg c r) /\ ram c' = ram c.
Proof. exact load_line. Qed.
Print Assumptions C45_load_partial.
(** An aligned store of up to 32 bits stores the value the register had. *)
Theorem C45_store_partial : forall depth s ignore pc name code p q n z out c m, In (name, store code) transfers ->
  mips_line depth s ignore pc name [p; PSym ","; q] = ROk out ->
  register Gpr p = Some n -> integer q = Some z -> sane c -> n <> 1 -> stored code c (u32 z) (reg c n) = Some m ->
  exists c', run (x_words out) c = Some c' /\ ram c' = ram m /\ (forall r, r <> 1 -> reg c' r = reg c r).
Proof. exact store_line. Qed.
Print Assumptions C45_store_partial.
(** The halves: the [.u] line, any code that keeps the scratch register, the [.l] line. *)
Theorem C45_halves_partial : forall depth depth' s s' ignore ignore' pc pc' name t p q p' q' n z out out' c, In (name, t) transfers ->
  mips_line depth s ignore pc (name ++ ".u")%string [p; PSym ","; q] = ROk out ->
  mips_line depth' s' ignore' pc' (name ++ ".l")%string [p'; PSym ","; q'] = ROk out' ->
  transferred t p = Some n -> integer q = Some z -> transferred t p' = Some n -> integer q' = Some z -> scratch t n <> 0 ->
  exists c1, run (x_words out) c = Some c1 /\ (forall r, r <> scratch t n -> reg c1 r = reg c r) /\ ram c1 = ram c /\
  forall c2, sane c2 -> reg c2 (scratch t n) = reg c1 (scratch t n) ->
  exists w, (x_words out' = [w] \/ x_words out' = [0; w]) /\ access_of w c2 = Some (t_code t, n, u32 z).
Proof. exact halves_line. Qed.
Print Assumptions C45_halves_partial.
Example C45_ex :
  (exists out, mips_line 1 (xs PSX) false 0x80010000 "lw" [xr "a0"; PSym ","; xi 0x8001F004] = ROk out /\ x_words out = [0x3C048002; 0x8C84F004]) /\
  (exists out, mips_line 1 (xs PSX) false 0x80010000 "sh" [xr "a0"; PSym ","; xi 0x8001F004] = ROk out /\ x_words out = [0x3C018002; 0xA424F004]) /\
  (exists out, mips_line 1 (xs PSP) false 0x8804000 "l.s" [xr "f3"; PSym ","; xi 0x8A01234] = ROk out /\ x_words out = [0x3C0108A0; 0xC4231234]) /\
  (exists out, mips_line 1 (xs PSX) false 0x80010000 "lw.u" [xr "a0"; PSym ","; xi 0x8001F004] = ROk out /\ x_words out = [0x3C048002]) /\
  (exists out, mips_line 1 (xs PSX) false 0x80010000 "lw.l" [xr "a0"; PSym ","; xi 0x8001F004] = ROk out /\ x_words out = [0x8C84F004]) /\
  In ("lw", load 0x23) transfers /\ In ("sh", store 0x29) transfers /\ In ("l.s", load_cop 0x31) transfers /\
  loaded 0x23 xcpu (u32 0x8001F004) = Some 0x07060504 /\ stored 0x29 xcpu (u32 0x8001F004) (reg xcpu 4) = Some (poke16 xcpu (u32 0x8001F004) (reg xcpu 4)).
Proof.
  split; [eexists; split; vm_compute; reflexivity|]. split; [eexists; split; vm_compute; reflexivity|].
  split; [eexists; split; vm_compute; reflexivity|]. split; [eexists; split; vm_compute; reflexivity|].
  split; [eexists; split; vm_compute; reflexivity|].
  split; [cbn; auto 40|]. split; [cbn; auto 40|]. split; [cbn; auto 40|]. split; [vm_compute; reflexivity|reflexivity].
Qed.
(** [lw r0,0x80010004] forms the address in r0, which stays 0: the access goes to address 4. *)
Theorem C45_r0_refuted : exists out w1 w2 c1,
  mips_line 1 (xs PSX) false 0x80010000 "lw" [xr "r0"; PSym ","; xi 0x80010004] = ROk out /\ x_words out = [w1; w2] /\
  run [w1] xcpu = Some c1 /\ access_of w2 c1 = Some (0x23, 0, 4).
Proof.
  do 4 eexists. split; [vm_compute; reflexivity|]. split; [vm_compute; reflexivity|]. split; [reflexivity|]. vm_compute. reflexivity.
Qed.
Print Assumptions C45_r0_refuted.
(** [sw at,0x80010004] stores the upper half of the address instead of the register. *)
Theorem C45_at_refuted : exists out w1 w2 c1 c',
  mips_line 1 (xs PSX) false 0x80010000 "sw" [xr "at"; PSym ","; xi 0x80010004] = ROk out /\ x_words out = [w1; w2] /\
  run [w1] xcpu = Some c1 /\ exec w2 c1 = Some c' /\ peek32 c' 0x80010004 = 0x80010000 /\ reg xcpu 1 = 0x01020304.
Proof.
  do 5 eexists. split; [vm_compute; reflexivity|]. split; [vm_compute; reflexivity|]. split; [reflexivity|]. split; [reflexivity|].
  split; vm_compute; reflexivity.
Qed.
Print Assumptions C45_at_refuted.

(** * C46 *)

(** seq, sne, slt, sle, sgt, sge and the unsigned ones leave 1 or 0 in the register, and change no
    other register, not even the assembler temporary.  Missing: the destination is also the source and
    the number has to be loaded first (see below). *)
Theorem C46_set_partial : forall depth s ignore pc x k signed p q r d a v out c, In (x, (k, signed)) comparisons ->
  mips_line depth s ignore pc (set_name (x, (k, signed))) [p; PSym ","; q; PSym ","; r] = ROk out ->
  register Gpr p = Some d -> register Gpr q = Some a -> operand c r = Some v -> sane c -> d <> 0 ->
  (forall z, integer r = Some z -> d <> a \/ in_place k z) ->
  exists c', run (x_words out) c = Some c' /\ reg c' d = b2z (compared k signed (reg c a) v) /\
    (forall y, y <> d -> reg c' y = reg c y) /\ ram c' = ram c.
Proof. exact set_whole. Qed.
Print Assumptions C46_set_partial.
Example C46_ex :
  (exists out, mips_line 2 (xs PSX) false 0x80010000 "sge" [xr "v0"; PSym ","; xr "a0"; PSym ","; xr "a1"] = ROk out /\ x_words out = [0x0085102A; 0x38420001]) /\
  (exists out, mips_line 2 (xs PSX) false 0x80010000 "sgtu" [xr "v0"; PSym ","; xr "a0"; PSym ","; xi 0x12345] = ROk out /\
     x_words out = [0x3C020001; 0x24422345; 0x0044102B]) /\
  (exists out, mips_line 2 (xs PSX) false 0x80010000 "seq" [xr "a0"; PSym ","; xr "a0"; PSym ","; xi 7] = ROk out /\ x_words out = [0x38840007; 0x2C840001]) /\
  In ("geu", (RGe, false)) comparisons /\ in_place REq 7 /\ ~ in_place RGt 0x12345.
Proof.
  split; [eexists; split; vm_compute; reflexivity|]. split; [eexists; split; vm_compute; reflexivity|].
  split; [eexists; split; vm_compute; reflexivity|]. split; [cbn; auto 20|]. split; [cbn; lia|cbn; lia].
Qed.
(** [sgt a0,a0,5] loads 5 into a0 first and then compares 5 with itself. *)
Theorem C46_same_refuted : exists out c', reg xcpu 4 = 0x04080C10 /\
  mips_line 2 (xs PSX) false 0x80010000 "sgt" [xr "a0"; PSym ","; xr "a0"; PSym ","; xi 5] = ROk out /\
  run (x_words out) xcpu = Some c' /\ reg c' 4 = 0 /\ compared RGt true (reg xcpu 4) 5 = true.
Proof.
  do 2 eexists. split; [vm_compute; reflexivity|]. split; [vm_compute; reflexivity|]. split; [reflexivity|]. split; vm_compute; reflexivity.
Qed.
Print Assumptions C46_same_refuted.

(** * C47 *)

(** beq, bne, blt, ble, bgt, bge, unsigned and likely: the last word is a branch on two registers that
    is taken exactly when the comparison holds; the words before it change only the assembler
    temporary.  The branch goes to the target that was written, except in the cases of C35 (a [nop] was put
    directly in front of the branch, a target that is not aligned, a distance of exactly 0x20000). *)
Theorem C47_branch : forall depth s ignore pc x k signed likely p q t a v z out c, In (x, (k, signed)) comparisons ->
  mips_line depth s ignore pc (branch_name likely (x, (k, signed))) [p; PSym ","; q; PSym ","; t] = ROk out ->
  register Gpr p = Some a -> operand c q = Some v -> integer t = Some z -> sane c -> (register Gpr q = None -> a <> 1) ->
  exists pre w c', x_words out = pre ++ [w] /\ run pre c = Some c' /\ branch_if w c' = Some (compared k signed (reg c a) v, likely) /\
    (forall r, r <> 1 -> reg c' r = reg c r) /\ ram c' = ram c /\
    (last pre 1 <> 0 -> z mod 4 = 0 -> s32 (z - (pc + 4 * Z.of_nat (List.length pre)) - 4) <> 0x20000 ->
     branch_target (pc + 4 * Z.of_nat (List.length pre)) w = Some (u32 z)).
Proof. exact branch_whole. Qed.
Print Assumptions C47_branch.
Example C47_ex :
  (exists out, mips_line 2 (xs PSX) false 0x80010000 "blt" [xr "a0"; PSym ","; xr "a1"; PSym ","; xi 0x80010100] = ROk out /\ x_words out = [0x0085082A; 0x1420003E]) /\
  (exists out, mips_line 2 (xs PSP) false 0x8804000 "bleul" [xr "a0"; PSym ","; xi 0x12345; PSym ","; xi 0x8804100] = ROk out /\
     x_words out = [0x3C010001; 0x24212345; 0x0024082B; 0x5020003C]) /\
  (exists out, mips_line 2 (xs PSP) false 0x8804000 "bne" [xr "a0"; PSym ","; xi 7; PSym ","; xi 0x8804100] = ROk out /\ x_words out = [0x34010007; 0x1481003E]) /\
  branch_name true ("leu", (RLe, false)) = "bleul" /\ In ("leu", (RLe, false)) comparisons /\
  operand xcpu (xi 0x12345) = Some 0x12345 /\ operand xcpu (xr "a1") = Some (reg xcpu 5).
Proof.
  split; [eexists; split; vm_compute; reflexivity|]. split; [eexists; split; vm_compute; reflexivity|].
  split; [eexists; split; vm_compute; reflexivity|]. split; [reflexivity|]. split; [cbn; auto 20|]. split; reflexivity.
Qed.
(** The exclusion of the assembler temporary is needed: [blt at,5,target] is fine, but [bgt at,5,target] compares 5 with itself. *)
Theorem C47_temporary : exists out w1 w2 w3 c',
  mips_line 2 (xs PSX) false 0x80010000 "bgt" [xr "at"; PSym ","; xi 5; PSym ","; xi 0x80010100] = ROk out /\ x_words out = [w1; w2; w3] /\
  run [w1; w2] xcpu = Some c' /\ branch_if w3 c' = Some (false, false) /\ compared RGt true (reg xcpu 1) 5 = true.
Proof.
  do 5 eexists. split; [vm_compute; reflexivity|]. split; [vm_compute; reflexivity|]. split; [reflexivity|]. split; vm_compute; reflexivity.
Qed.
Print Assumptions C47_temporary.

(** * C48 *)

(** rol and ror rotate by a register or a number, and change nothing else but the assembler temporary. *)
Theorem C48_rotate : forall depth s ignore pc left p q r d a v out c,
  mips_line depth s ignore pc (rot_name left) [p; PSym ","; q; PSym ","; r] = ROk out ->
  register Gpr p = Some d -> register Gpr q = Some a -> operand c r = Some v -> sane c ->
  d <> 0 -> d <> 1 -> a <> 1 -> register Gpr r <> Some 1 ->
  exists c', run (x_words out) c = Some c' /\ reg c' d = rotated left (reg c a) v /\
    (forall y, y <> d -> y <> 1 -> reg c' y = reg c y) /\ ram c' = ram c.
Proof. exact rotate_whole. Qed.
Print Assumptions C48_rotate.
(** abs leaves the absolute value, modulo 2^32. *)
Theorem C48_abs : forall depth s ignore pc p q d a out c,
  mips_line depth s ignore pc "abs" [p; PSym ","; q] = ROk out ->
  register Gpr p = Some d -> register Gpr q = Some a -> sane c -> d <> 0 -> d <> 1 -> a <> 1 ->
  exists c', run (x_words out) c = Some c' /\ reg c' d = u32 (Z.abs (s32 (reg c a))) /\
    (forall y, y <> d -> y <> 1 -> reg c' y = reg c y) /\ ram c' = ram c.
Proof. exact abs_whole. Qed.
Print Assumptions C48_abs.
Example C48_ex :
  (exists out, mips_line 1 (xs PSX) false 0x80010000 "rol" [xr "v0"; PSym ","; xr "a0"; PSym ","; xr "a1"] = ROk out /\
     x_words out = [0x00050823; 0x00240806; 0x00A41004; 0x00411025]) /\
  (exists out, mips_line 1 (xs PSX) false 0x80010000 "ror" [xr "v0"; PSym ","; xr "a0"; PSym ","; xi 8] = ROk out /\
     x_words out = [0x00040E00; 0x00041202; 0x00411025]) /\
  (exists out, mips_line 1 (xs PSP) false 0x8804000 "rol" [xr "v0"; PSym ","; xr "a0"; PSym ","; xi 8] = ROk out /\ x_words out = [0x00241602]) /\
  (exists out, mips_line 1 (xs PSX) false 0x80010000 "abs" [xr "v0"; PSym ","; xr "a0"] = ROk out /\ x_words out = [0x00040FC3; 0x00811026; 0x00411023]) /\
  rotated true 0x12345678 8 = 0x34567812 /\ rotated false 0x12345678 36 = 0x81234567.
Proof.
  split; [eexists; split; vm_compute; reflexivity|]. split; [eexists; split; vm_compute; reflexivity|].
  split; [eexists; split; vm_compute; reflexivity|]. split; [eexists; split; vm_compute; reflexivity|]. split; vm_compute; reflexivity.
Qed.

(** * C49 *)

(** ulhu and ulw load, ush and usw store the bytes at the address, on a little-endian machine.
    Missing: offsets above 0x7FFF (accepted, and wrapped), and what is refuted below. *)
Theorem C49_ulhu_partial : forall depth s ignore pc p q r d b z out c,
  mips_line depth s ignore pc "ulhu" [p; PSym ","; q; PSym "("; r; PSym ")"] = ROk out ->
  register Gpr p = Some d -> integer q = Some z -> register Gpr r = Some b -> -32768 <= z < 32768 ->
  sane c -> d <> 0 -> d <> 1 -> b <> 1 ->
  exists c', run (x_words out) c = Some c' /\ reg c' d = bytes_at 2 c (reg c b + z) /\
    (forall x, x <> d -> x <> 1 -> reg c' x = reg c x) /\ ram c' = ram c.
Proof. exact ulhu_whole. Qed.
Print Assumptions C49_ulhu_partial.
(** ulh loads a signed halfword.  Missing: a lower byte above 0x7F. *)
Theorem C49_ulh_partial : forall depth s ignore pc p q r d b z out c,
  mips_line depth s ignore pc "ulh" [p; PSym ","; q; PSym "("; r; PSym ")"] = ROk out ->
  register Gpr p = Some d -> integer q = Some z -> register Gpr r = Some b -> -32768 <= z < 32768 ->
  sane c -> d <> 0 -> d <> 1 -> b <> 1 -> peek c (reg c b + z) < 128 ->
  exists c', run (x_words out) c = Some c' /\ reg c' d = u32 (s16 (bytes_at 2 c (reg c b + z))) /\
    (forall x, x <> d -> x <> 1 -> reg c' x = reg c x) /\ ram c' = ram c.
Proof. exact ulh_whole. Qed.
Print Assumptions C49_ulh_partial.
Theorem C49_ulw_partial : forall depth s ignore pc p q r d b z out c,
  mips_line depth s ignore pc "ulw" [p; PSym ","; q; PSym "("; r; PSym ")"] = ROk out ->
  register Gpr p = Some d -> integer q = Some z -> register Gpr r = Some b -> -32768 <= z < 32768 -> sane c -> d <> 0 ->
  exists c', run (x_words out) c = Some c' /\ reg c' d = bytes_at 4 c (reg c b + z) /\ (forall x, x <> d -> reg c' x = reg c x) /\ ram c' = ram c.
Proof. exact ulw_whole. Qed.
Print Assumptions C49_ulw_partial.
Theorem C49_usw_partial : forall depth s ignore pc p q r d b z out c,
  mips_line depth s ignore pc "usw" [p; PSym ","; q; PSym "("; r; PSym ")"] = ROk out ->
  register Gpr p = Some d -> integer q = Some z -> register Gpr r = Some b -> -32768 <= z < 32768 ->
  exists c', run (x_words out) c = Some c' /\ reg c' = reg c /\
    forall x, 0 <= x < 4294967296 -> ram c' x = bytes_put 4 (ram c) (reg c b + z) (reg c d) x.
Proof. exact usw_whole. Qed.
Print Assumptions C49_usw_partial.
Theorem C49_ush_partial : forall depth s ignore pc p q r d b z out c,
  mips_line depth s ignore pc "ush" [p; PSym ","; q; PSym "("; r; PSym ")"] = ROk out ->
  register Gpr p = Some d -> integer q = Some z -> register Gpr r = Some b -> -32768 <= z < 32768 -> b <> 1 ->
  exists c', run (x_words out) c = Some c' /\ (forall x, x <> 1 -> reg c' x = reg c x) /\
    forall x, 0 <= x < 4294967296 -> ram c' x = bytes_put 2 (ram c) (reg c b + z) (reg c d) x.
Proof. exact ush_whole. Qed.
Print Assumptions C49_ush_partial.
Definition ex_un (r : string) (z : Z) : list piece := [xr r; PSym ","; xi z; PSym "("; xr "a1"; PSym ")"].
Example C49_ex :
  (exists out, mips_line 1 (xs PSP) false 0x8804000 "ulw" (ex_un "v0" 6) = ROk out /\ x_words out = [0x88A20009; 0x98A20006]) /\
  (exists out, mips_line 1 (xs PSP) false 0x8804000 "ulhu" (ex_un "v0" 6) = ROk out /\ x_words out = [0x90A10007; 0x90A20006; 0x00010A00; 0x00411025]) /\
  (exists out, mips_line 1 (xs PSP) false 0x8804000 "ulh" (ex_un "v0" 6) = ROk out /\ x_words out = [0x80A10007; 0x80A20006; 0x00010A00; 0x00411025]) /\
  (exists out, mips_line 1 (xs PSP) false 0x8804000 "usw" (ex_un "v0" 6) = ROk out /\ x_words out = [0xA8A20009; 0xB8A20006]) /\
  (exists out, mips_line 1 (xs PSP) false 0x8804000 "ush" (ex_un "v0" 6) = ROk out /\ x_words out = [0xA0A20006; 0x00020A02; 0xA0A10007]) /\
  bytes_at 4 xcpu (reg xcpu 5 + 6) = 0x1D1C1B1A /\ peek xcpu (reg xcpu 5 + 6) < 128.
Proof.
  split; [eexists; split; vm_compute; reflexivity|]. split; [eexists; split; vm_compute; reflexivity|].
  split; [eexists; split; vm_compute; reflexivity|]. split; [eexists; split; vm_compute; reflexivity|].
  split; [eexists; split; vm_compute; reflexivity|]. split; vm_compute; reflexivity.
Qed.
(** ulh reads its lower byte with lb: with 0x80 there, the upper byte is lost. *)
Theorem C49_ulh_refuted : exists out c', bytes_at 2 xcpu (reg xcpu 5 + 0x6C) = 0x8180 /\
  mips_line 1 (xs PSP) false 0x8804000 "ulh" (ex_un "v0" 0x6C) = ROk out /\
  run (x_words out) xcpu = Some c' /\ reg c' 2 = 0xFFFFFF80 /\ u32 (s16 0x8180) = 0xFFFF8180.
Proof.
  do 2 eexists. split; [vm_compute; reflexivity|]. split; [vm_compute; reflexivity|]. split; [reflexivity|]. split; vm_compute; reflexivity.
Qed.
Print Assumptions C49_ulh_refuted.
(** An offset of 0x8000 is accepted and read as -0x8000. *)
Theorem C49_offset_refuted : exists out w1 w2,
  mips_line 1 (xs PSP) false 0x8804000 "ulw" (ex_un "v0" 0x8000) = ROk out /\ x_words out = [w1; w2] /\
  access_of w2 xcpu = Some (0x26, 2, u32 (reg xcpu 5 - 0x8000)).
Proof. do 3 eexists. split; [vm_compute; reflexivity|]. split; [vm_compute; reflexivity|]. vm_compute. reflexivity. Qed.
Print Assumptions C49_offset_refuted.
