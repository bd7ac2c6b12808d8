(** Thumb source lines: C97 (how they are read), C98 (what they are assembled to). *)

Require Import ZArith Bool List String Ascii.
Require Import Verif.Ints Verif.Res Verif.ExprModel Verif.ParseModel Verif.ArmModel Verif.ThumbModel Verif.ThumbSpec Verif.ArmLineSpec
  Verif.ThumbLineModel Verif.ThumbLineSpec Verif.ThumbLineProofs Verif.ThumbLineEnd Verif.ThumbLineCases.
Import ListNotations.
Local Open Scope Z_scope.

(** ** C97: Thumb lines are read as they are laid out *)

(** The line is read as the first row whose syntax it fits, and rejected exactly if there is none. *)
Theorem C97_read : forall isfun file section signed arch v ts,
  match parseThumbOpcode isfun file section signed arch v ts with
  | Some (o, _, r) => exists ps, tfirst isfun file section signed arch ts o ps r
  | None => forall o ps r, In o ThumbOpcodes -> ~ treads isfun file section signed arch ts o ps r
  end.
Proof. exact opcode_reads. Qed.
(** No line fits a row in two ways, so the reading is the only one. *)
Theorem C97_row_once : forall isfun file section signed arch ts o ps r ps' r',
  treads isfun file section signed arch ts o ps r -> treads isfun file section signed arch ts o ps' r' -> ps = ps' /\ r = r'.
Proof. exact treads_once. Qed.
Theorem C97_once : forall isfun file section signed arch ts o ps r o' ps' r',
  tfirst isfun file section signed arch ts o ps r -> tfirst isfun file section signed arch ts o' ps' r' -> o = o' /\ ps = ps' /\ r = r'.
Proof. exact tfirst_once. Qed.
(** What is assembled does not depend on the first values of the variables, nor on what the rows that
    were tried before have left in them. *)
Theorem C97_variables : forall isfun file section signed nan ev arch v v' ts a pool,
  thumb_line isfun file section signed arch nan ev v ts a pool = thumb_line isfun file section signed arch nan ev v' ts a pool.
Proof. exact line_vars. Qed.
(** add sp,-8: other rows are tried before, and leave 13 in [rd].  mov r0,r8 is not the row for r0 to r7. *)
Example C97_ex :
  tread "add sp,-8" (trow "add sp,-8") [QNum 7 (EUn UNeg (EInt 8))] /\
  t_encoding (trow "add sp,-8") = 0xB000 /\ tasm AARCH_NDS "add sp,-8" = ROk [0xB082] /\
  tread "mov r0,r8" (trow "mov r0,r8") [QReg PD 0; QReg PS 8] /\ t_mask (trow "mov r0,r8") = "D,S"%string /\
  tread "ldmia [r3]!,{r0,r4-r6}" (trow "ldmia [r3]!,{r0,r4-r6}") [QReg PD 3; QList 0x71] /\
  parseThumbOpcode nofun 0 0 true AARCH_GBA junk (tline "blx r0") = None.
Proof.
  split; [tread_ex|]. split; [vm_compute; reflexivity|]. split; [vm_compute; reflexivity|]. split; [tread_ex|].
  split; [vm_compute; reflexivity|]. split; [tread_ex|vm_compute; reflexivity].
Qed.

(** ** C98: a Thumb line becomes the instruction it names *)

(** For a line at an even address: if it is assembled, the halfwords decode to the instruction that the
    line asks for, or, for a branch, lead to the target; if it is rejected, it fits no row, or there is
    no such instruction; undefined behaviour is only met for ldr rd,\[pc\].  [tsane] leaves out the
    lines for which this is false; see below. *)
Theorem C98_line_partial : forall isfun file section signed nan ev arch v ts a pool,
  0 <= a < 2 ^ 32 -> a mod 2 = 0 -> pool mod 4 = 0 ->
  match thumb_line isfun file section signed arch nan ev v ts a pool with
  | ROk ws => exists o ps r f, tfirst isfun file section signed arch ts o ps r /\ thumb_form (t_name o) (t_mask o) = Some f /\
      (tsane ev f ps a -> tmeans ev f ps a pool ws)
  | RErr => (forall o ps r, In o ThumbOpcodes -> ~ treads isfun file section signed arch ts o ps r) \/
      exists o ps r f, tfirst isfun file section signed arch ts o ps r /\ thumb_form (t_name o) (t_mask o) = Some f /\
        (tsane ev f ps a -> ~ tfits ev f ps a pool)
  | RUb => exists o ps r, tfirst isfun file section signed arch ts o ps r /\ thumb_form (t_name o) (t_mask o) = Some FLoadPc0
  end.
Proof. intros isfun file section signed nan ev arch v ts a pool Ha Ea Ep. exact (thumb_line_claim isfun file section signed nan ev arch v ts a pool Ha Ea Ep). Qed.
(** Where characters are unsigned, no register list is left out. *)
Theorem C98_lists_unsigned : forall isfun file section arch ts o ps r f a, tfirst isfun file section false arch ts o ps r ->
  thumb_form (t_name o) (t_mask o) = Some f -> is_list f = true -> exists x, thumb_meaning f (toperands_of ps) 0 a = Some x.
Proof. exact lists_sane. Qed.
(** An addition of a negative number, a literal, a branch, a number that does not fit. *)
Example C98_ex :
  tread "add r1,r2,-3" (trow "add r1,r2,-3") [QReg PD 1; QReg PS 2; QNum 3 (EUn UNeg (EInt 3))] /\
  tsane tev (FAddImm false) [QReg PD 1; QReg PS 2; QNum 3 (EUn UNeg (EInt 3))] 0x1000 /\
  thumb_form "add" (t_mask (trow "add r1,r2,-3")) = Some (FAddImm false) /\
  tasm AARCH_NDS "add r1,r2,-3" = ROk [0x1ED1] /\ thumb_decode 0x1ED1 = Some (TAddImm true 1 2 3) /\
  tasm AARCH_NDS "ldr r5,=0x12345678" = ROk [0x4D03] /\ thumb_decode 0x4D03 = Some (TLoadPc 5 12) /\
  tasm AARCH_NDS "bl 0x2000" = ROk [0xF000; 0xFFFE] /\ thumb_target 0x1000 [0xF000; 0xFFFE] = Some 0x2000 /\
  tasm AARCH_NDS "mov r0,256" = RErr /\ tasm AARCH_NDS "add r0,r1" = ROk [0x1840].
Proof.
  split; [tread_ex|]. split.
  { split; [intros _ _ z E; vm_compute in E; injection E as <-; vm_compute; split; congruence|].
    split; [discriminate|]. split; discriminate. }
  vm_compute. repeat split; reflexivity.
Qed.
(** With unsigned characters push {r8} is refused. *)
Example C98_unsigned_ex : parseThumbOpcode nofun 0 0 false AARCH_NDS junk (tline "push {r8}") = None /\
  exists v, parseThumbOpcode nofun 0 0 false AARCH_NDS junk (tline "push {r0-r3,lr}") = Some (trow "push {r0-r3,lr}", v, []) /\ g_list v = 0x400F.
Proof. split; [vm_compute; reflexivity|]. eexists. split; vm_compute; reflexivity. Qed.

(** push {r8}, with signed characters: assembled to a push of nothing. *)
Theorem C98_list_refuted : exists ps, tread "push {r8}" (trow "push {r8}") ps /\ ~ tfits tev FPush ps 0x1000 0x1010 /\
  thumb_form "push" (t_mask (trow "push {r8}")) = Some FPush /\ tasm AARCH_NDS "push {r8}" = ROk [0xB400] /\
  thumb_decode 0xB400 = Some (TPush 0 false).
Proof.
  exists (tpieces "push {r8}"). split; [tread_ex|]. split.
  { intros (x & z & _ & M). vm_compute in M. discriminate M. }
  vm_compute. repeat split; reflexivity.
Qed.
(** mov r0,0x100000001 is assembled to mov r0,1. *)
Theorem C98_truncation_refuted : exists ps, tread "mov r0,0x100000001" (trow "mov r0,0x100000001") ps /\
  ~ tfits tev (FImm 0) ps 0x1000 0x1010 /\ thumb_form "mov" (t_mask (trow "mov r0,0x100000001")) = Some (FImm 0) /\
  tasm AARCH_NDS "mov r0,0x100000001" = ROk [0x2001].
Proof.
  exists (tpieces "mov r0,0x100000001"). split; [tread_ex|]. split.
  { intros (x & z & E & M). vm_compute in E. injection E as <-. vm_compute in M. discriminate M. }
  vm_compute. repeat split; reflexivity.
Qed.
(** ldr r3,\[pc\] is assembled with a number that was never set. *)
Theorem C98_load_pc_refuted : tread "ldr r3,[pc]" (trow "ldr r3,[pc]") [QReg PD 3] /\ tasm AARCH_NDS "ldr r3,[pc]" = RUb /\
  thumb_meaning FLoadPc0 (toperands_of [QReg PD 3]) 0 0x1000 = Some (TLoadPc 3 0).
Proof. split; [tread_ex|]. vm_compute. split; reflexivity. Qed.

Print Assumptions C97_read.
Print Assumptions C97_row_once.
Print Assumptions C97_once.
Print Assumptions C97_variables.
Print Assumptions C98_line_partial.
Print Assumptions C98_lists_unsigned.
Print Assumptions C98_list_refuted.
Print Assumptions C98_truncation_refuted.
Print Assumptions C98_load_pc_refuted.
