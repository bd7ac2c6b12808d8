(** MIPS instruction properties: C35 (branches), C40 (fields), C42 (immediates), C67 (distinct words). *)

Require Import ZArith Bool List String Ascii Lia.
Require Import Verif.Ints Verif.Res Verif.MipsTable Verif.MipsModel Verif.MipsSpec Verif.MipsCpu Verif.MipsWordProofs Verif.MipsDecodeProofs.
Import ListNotations.
Local Open Scope Z_scope.

(** Operands for the examples. *)
Definition xr (s : string) : piece := PName false s VBad.
Definition xi (z : Z) : piece := PExpr (VInt z 0).
Definition xc : piece := PSym ",".
Definition xs (a : mips_arch) : mips_state := mkMips a false false 0 false.

(** * C40 *)

(** The word of an accepted instruction ([nop] in front of it when a load delay is fixed) is the
    instruction that the reference knows under this name, written in one of its forms: every operand
    is in its field, and all bits outside the fields are the fixed bits of the instruction.  Missing:
    the cases named by [irregular], see below. *)
Theorem C40_fields_partial : forall s ignore pc name ps out,
  mips_assemble s ignore pc name ps = ROk out -> irregular (ms_arch s) name ps = false ->
  exists w, (x_words out = [w] \/ (x_words out = [0; w] /\ x_warn out = true)) /\ encodes (ms_arch s) pc name ps w.
Proof. exact assemble_encodes. Qed.
Print Assumptions C40_fields_partial.
Definition ex_ins : list piece := [xr "a0"; xc; xr "a1"; xc; xi 8; xc; xi 16].
Definition ex_lw : list piece := [xr "a0"; xc; xi (-4); PSym "("; xr "sp"; PSym ")"].
Definition ex_vadd : list piece := [xr "c000"; xc; xr "r102"; xc; xr "c730"].
Example C40_ex :
  irregular PSP "ins" ex_ins = false /\
  (exists out, mips_assemble (xs PSP) false 0x8800000 "ins" ex_ins = ROk out /\ x_words out = [0x7CA4BA04]) /\
  irregular PSX "lw" ex_lw = false /\
  (exists out, mips_assemble (xs PSX) false 0x80010000 "lw" ex_lw = ROk out /\ x_words out = [0x8FA4FFFC]) /\
  irregular PSP "vadd.q" ex_vadd = false /\
  (exists out, mips_assemble (xs PSP) false 0x8800000 "vadd.q" ex_vadd = ROk out /\ x_words out = [0x601FA680]).
Proof. repeat split; try (vm_compute; reflexivity); eexists; split; vm_compute; reflexivity. Qed.

(** [ins a0,a1,20,16] is accepted although the field would end behind bit 31; the excess spills into
    the register field and the instruction writes a1 instead of a0. *)
Theorem C40_ins_refuted : exists ps out w,
  ps = [xr "a0"; xc; xr "a1"; xc; xi 20; xc; xi 16] /\
  mips_assemble (xs PSP) false 0x8800000 "ins" ps = ROk out /\ x_words out = [w] /\
  register Gpr (xr "a0") = Some 4 /\ bits w 16 5 = 5.
Proof. do 3 eexists. split; [reflexivity|]. split; [vm_compute; reflexivity|]. split; [vm_compute; reflexivity|]. vm_compute. auto. Qed.
Print Assumptions C40_ins_refuted.
(** [wsbh a0] is accepted and takes r0, not a0, as its source. *)
Theorem C40_one_operand_refuted : exists out w,
  mips_assemble (xs PSP) false 0x8800000 "wsbh" [xr "a0"] = ROk out /\ x_words out = [w] /\
  bits w 11 5 = 4 /\ bits w 16 5 = 0.
Proof. do 2 eexists. split; [vm_compute; reflexivity|]. split; [vm_compute; reflexivity|]. vm_compute. auto. Qed.
Print Assumptions C40_one_operand_refuted.
(** [vcmovt] with the immediate 8 is the word of [vcmovf] with the immediate 0: the fixed bit of
    [vcmovf] lies inside the immediate field. *)
Theorem C40_vcmov_refuted : exists out out',
  mips_assemble (xs PSP) false 0x8800000 "vcmovt.s" [xr "s000"; xc; xr "s001"; xc; xi 8] = ROk out /\
  mips_assemble (xs PSP) false 0x8800000 "vcmovf.s" [xr "s000"; xc; xr "s001"; xc; xi 0] = ROk out' /\
  x_words out = x_words out'.
Proof. do 2 eexists. split; [vm_compute; reflexivity|]. split; vm_compute; reflexivity. Qed.
Print Assumptions C40_vcmov_refuted.
(** On the PS2 [sqrt.s f1,f2] leaves the source field of that processor (ft) empty. *)
Theorem C40_sqrt_refuted : exists out w,
  mips_assemble (xs PS2) false 0x100000 "sqrt.s" [xr "f1"; xc; xr "f2"] = ROk out /\ x_words out = [w] /\
  bits w 16 5 = 0 /\ bits w 11 5 = 2.
Proof. do 2 eexists. split; [vm_compute; reflexivity|]. split; [vm_compute; reflexivity|]. vm_compute. auto. Qed.
Print Assumptions C40_sqrt_refuted.

(** * C35 *)

(** A branch goes to the address that was written.  Missing: a target that is not a multiple of four
    (rounded), a distance of exactly 0x20000 bytes (goes to the wrong side), and a branch behind a
    [nop] that was put in front of it because of a load delay (misses by four). *)
Theorem C35_branch_partial : forall s ignore pc name ps out z w,
  mips_assemble s ignore pc name ps = ROk out -> immediate_of name = Branch ->
  x_words out = [w] -> integer (last ps (PSym ",")) = Some z ->
  z mod 4 = 0 -> s32 (z - pc - 4) <> 0x20000 ->
  branch_target pc w = Some (u32 z).
Proof. exact branch_exact. Qed.
Print Assumptions C35_branch_partial.
(** A jump goes to the address that was written.  Missing: a target in another region of 2^28 bytes. *)
Theorem C35_jump_partial : forall s ignore pc name ps out z w,
  mips_assemble s ignore pc name ps = ROk out -> immediate_of name = Jump ->
  x_words out = [w] -> integer (last ps (PSym ",")) = Some z ->
  z mod 4 = 0 -> u32 z / 2 ^ 28 = u32 (pc + 4) / 2 ^ 28 ->
  branch_target pc w = Some (u32 z).
Proof. exact jump_exact. Qed.
Print Assumptions C35_jump_partial.
Definition ex_beq (z : Z) : list piece := [xr "a0"; xc; xr "r0"; xc; xi z].
Example C35_ex :
  (exists out, mips_assemble (xs PSX) false 0x80010000 "beq" (ex_beq 0x8000FF00) = ROk out /\ x_words out = [0x1080FFBF]) /\
  immediate_of "beq" = Branch /\ integer (last (ex_beq 0x8000FF00) (PSym ",")) = Some 0x8000FF00 /\
  0x8000FF00 mod 4 = 0 /\ s32 (0x8000FF00 - 0x80010000 - 4) <> 0x20000 /\
  (exists out, mips_assemble (xs N64) false 0x80010000 "jal" [xi 0x8FFFFFFC] = ROk out /\ x_words out = [0x0FFFFFFF]) /\
  immediate_of "jal" = Jump /\ u32 0x8FFFFFFC / 2 ^ 28 = u32 (0x80010000 + 4) / 2 ^ 28.
Proof.
  split; [eexists; split; vm_compute; reflexivity|]. split; [vm_compute; reflexivity|]. split; [vm_compute; reflexivity|].
  split; [vm_compute; reflexivity|]. split; [vm_compute; discriminate|]. split; [eexists; split; vm_compute; reflexivity|].
  split; vm_compute; reflexivity.
Qed.

(** The farthest accepted distance wraps: the branch goes 0x40000 bytes too low. *)
Theorem C35_range_refuted : exists out w,
  mips_assemble (xs PSX) false 0x80010000 "beq" (ex_beq 0x80030004) = ROk out /\ x_words out = [w] /\
  branch_target 0x80010000 w = Some 0x7FFF0004.
Proof. do 2 eexists. split; [vm_compute; reflexivity|]. split; [vm_compute; reflexivity|]. vm_compute. auto. Qed.
Print Assumptions C35_range_refuted.
(** A target that is not aligned is accepted and rounded. *)
Theorem C35_unaligned_refuted : exists out w,
  mips_assemble (xs PSX) false 0x80010000 "beq" (ex_beq 0x80010102) = ROk out /\ x_words out = [w] /\
  branch_target 0x80010000 w = Some 0x80010100.
Proof. do 2 eexists. split; [vm_compute; reflexivity|]. split; [vm_compute; reflexivity|]. vm_compute. auto. Qed.
Print Assumptions C35_unaligned_refuted.
(** With [.fixloaddelay] the offset is still counted from the [nop]. *)
Theorem C35_nop_refuted : exists out w,
  mips_assemble (mkMips PSX true true 4 false) false 0x80010000 "beq" (ex_beq 0x80010010) = ROk out /\
  x_words out = [0; w] /\ branch_target (0x80010000 + 4) w = Some 0x80010014.
Proof. do 2 eexists. split; [vm_compute; reflexivity|]. split; [vm_compute; reflexivity|]. vm_compute. auto. Qed.
Print Assumptions C35_nop_refuted.
(** A jump to another region is accepted and stays in its own. *)
Theorem C35_region_refuted : exists out w,
  mips_assemble (xs PSX) false 0x80010000 "j" [xi 0x30000] = ROk out /\ x_words out = [w] /\
  branch_target 0x80010000 w = Some 0x80030000.
Proof. do 2 eexists. split; [vm_compute; reflexivity|]. split; [vm_compute; reflexivity|]. vm_compute. auto. Qed.
Print Assumptions C35_region_refuted.

(** * C42 *)

(** What the processor takes from the word is the number that was written ([subi] and the like: its
    negation) when the instruction can represent it.  Missing: other numbers are not always rejected. *)
Theorem C42_immediate_partial : forall s ignore pc name ps out z w k,
  mips_assemble s ignore pc name ps = ROk out -> irregular (ms_arch s) name ps = false ->
  (x_words out = [w] \/ x_words out = [0; w]) ->
  immediate_kind (vfpu_unit (ms_arch s)) w = Some k -> integer (immediate_operand ps) = Some z ->
  match immediate_of name with
  | Plain => representable k z -> word_immediate k w = z
  | Negated => representable k (-z) -> word_immediate k w = -z
  | _ => True
  end.
Proof. exact immediate_exact. Qed.
Print Assumptions C42_immediate_partial.
Example C42_ex :
  (exists out, mips_assemble (xs PSX) false 0x80010000 "lw" ex_lw = ROk out /\ x_words out = [0x8FA4FFFC]) /\
  irregular PSX "lw" ex_lw = false /\ immediate_kind (vfpu_unit PSX) 0x8FA4FFFC = Some Signed16 /\
  integer (immediate_operand ex_lw) = Some (-4) /\ immediate_of "lw" = Plain /\ representable Signed16 (-4) /\
  (exists out, mips_assemble (xs PSX) false 0x80010000 "subiu" [xr "sp"; xc; xi 32] = ROk out /\ x_words out = [0x27BDFFE0]) /\
  immediate_of "subiu" = Negated /\ word_immediate Signed16 0x27BDFFE0 = -32.
Proof.
  split; [eexists; split; vm_compute; reflexivity|]. do 4 (split; [vm_compute; reflexivity|]).
  split; [vm_compute; split; [discriminate|reflexivity]|]. split; [eexists; split; vm_compute; reflexivity|].
  split; vm_compute; reflexivity.
Qed.

(** [addiu a0,r0,65535] loads -1, [addiu a0,r0,-65535] loads 1, and [addiu a0,r0,0x100000001] loads 1. *)
Theorem C42_range_refuted : forall zv, In zv [(65535, -1); (-65535, 1); (0x100000001, 1)] ->
  exists out w, mips_assemble (xs PSX) false 0x80010000 "addiu" [xr "a0"; xc; xr "r0"; xc; xi (fst zv)] = ROk out /\
  x_words out = [w] /\ immediate_kind (vfpu_unit PSX) w = Some Signed16 /\ word_immediate Signed16 w = snd zv.
Proof. intros zv [<-|[<-|[<-|[]]]]; do 2 eexists; (split; [vm_compute; reflexivity|]); (split; [vm_compute; reflexivity|]); vm_compute; auto. Qed.
Print Assumptions C42_range_refuted.

(** * C67 *)

(** Two accepted lines for the same processor that give the same instruction word name the same
    instruction or synonyms.  Missing: the instructions in [vfpu_clashes]. *)
Theorem C67_distinct_partial : forall s1 s2 g1 g2 pc1 pc2 name1 name2 ps1 ps2 out1 out2 w,
  ms_arch s1 = ms_arch s2 ->
  mips_assemble s1 g1 pc1 name1 ps1 = ROk out1 -> irregular (ms_arch s1) name1 ps1 = false -> last (x_words out1) 0 = w ->
  mips_assemble s2 g2 pc2 name2 ps2 = ROk out2 -> irregular (ms_arch s2) name2 ps2 = false -> last (x_words out2) 0 = w ->
  name1 = name2 \/ together synonyms name1 name2 = true \/ together vfpu_clashes name1 name2 = true.
Proof. exact words_distinct. Qed.
Print Assumptions C67_distinct_partial.
Example C67_ex :
  (exists out, mips_assemble (xs PSX) false 0x80010000 "beq" (ex_beq 0x80010010) = ROk out /\ last (x_words out) 0 = 0x10800003) /\
  (exists out, mips_assemble (xs PSX) false 0x80010000 "beqz" [xr "a0"; xc; xi 0x80010010] = ROk out /\ last (x_words out) 0 = 0x10800003) /\
  irregular PSX "beq" (ex_beq 0x80010010) = false /\ irregular PSX "beqz" [xr "a0"; xc; xi 0x80010010] = false /\
  together synonyms "beq" "beqz" = true /\ together synonyms "beq" "bne" = false /\ together vfpu_clashes "beq" "bne" = false.
Proof.
  do 2 (split; [eexists; split; vm_compute; reflexivity|]). do 4 (split; [vm_compute; reflexivity|]). vm_compute. reflexivity.
Qed.

(** The register number of [vmfvc.s] sets the bit that tells [vmfv.p] from [vmfv.s]. *)
Theorem C67_vmfvc_refuted : exists out1 out2,
  mips_assemble (xs PSP) false 0x8800000 "vmfv.p" [xr "c000"; xc; xi 1] = ROk out1 /\
  mips_assemble (xs PSP) false 0x8800000 "vmfvc.s" [xr "s000"; xc; xi 1] = ROk out2 /\ x_words out1 = x_words out2.
Proof. do 2 eexists. split; [vm_compute; reflexivity|]. split; vm_compute; reflexivity. Qed.
Print Assumptions C67_vmfvc_refuted.
(** [ulv.q] of column c202 is [lvr.q] of column c200. *)
Theorem C67_ulv_refuted : exists out1 out2,
  mips_assemble (xs PSP) false 0x8800000 "ulv.q" [xr "c202"; xc; xi 16; PSym "("; xr "a0"; PSym ")"] = ROk out1 /\
  mips_assemble (xs PSP) false 0x8800000 "lvr.q" [xr "c200"; xc; xi 16; PSym "("; xr "a0"; PSym ")"] = ROk out2 /\
  x_words out1 = x_words out2.
Proof. do 2 eexists. split; [vm_compute; reflexivity|]. split; vm_compute; reflexivity. Qed.
Print Assumptions C67_ulv_refuted.
