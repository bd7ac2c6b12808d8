(** Property C57: load delays on the PlayStation. *)

Require Import ZArith Bool List String Ascii Lia.
Require Import Verif.Ints Verif.Res Verif.MipsTable Verif.MipsModel Verif.MipsMacroModel Verif.MipsDelayModel Verif.MipsDelaySpec
  Verif.MipsDelayProofs.
Import ListNotations.
Local Open Scope string_scope.
Local Open Scope list_scope.
Local Open Scope Z_scope.

Definition yr (s : string) : piece := PName false s VBad.
Definition yc : piece := PSym ",".
Definition yload (t : string) (b : string) : source_line := Code "lw" [yr t; yc; PExpr (VInt 4 0); PSym "("; yr b; PSym ")"].
Definition yaddu (d s t : string) : source_line := Code "addu" [yr d; yc; yr s; yc; yr t].

(** With [.fixloaddelay] no word reads a register that the word in front of it loads, whatever lines and
    macros the text is made of.  Missing: texts with [.resetdelay], see below. *)
Theorem C57_fixed_partial : forall depth pc src outs,
  psx_program depth pc src = ROk outs -> In FixLoadDelay src -> ~ In ResetDelay src ->
  forall w1 w2, adjacent w1 w2 (flat_map x_words outs) -> ~ hazard w1 w2.
Proof. exact program_fixed. Qed.
Print Assumptions C57_fixed_partial.

(** Each instruction is one word, or a nop and that word; it has the nop when a warning was given. *)
Theorem C57_nops : forall depth pc src outs,
  psx_program depth pc src = ROk outs -> In FixLoadDelay src ->
  Forall (fun x => exists w, x_words x = (if x_warn x then [0; w] else [w])) outs.
Proof. exact program_nops. Qed.
Print Assumptions C57_nops.

(** Without it every instruction is one word, and there is a warning for each word that reads what the
    word in front of it loads.  Missing: texts with [.resetdelay]. *)
Theorem C57_warned_partial : forall depth pc src outs,
  psx_program depth pc src = ROk outs -> ~ In FixLoadDelay src -> ~ In ResetDelay src ->
  Forall (fun x => List.length (x_words x) = 1%nat) outs /\
  forall x y, adjacent x y outs -> forall w1 w2, x_words x = [w1] -> x_words y = [w2] -> hazard w1 w2 -> x_warn y = true.
Proof. exact program_warned. Qed.
Print Assumptions C57_warned_partial.

Definition y_text : list source_line := [FixLoadDelay; yload "a0" "sp"; yaddu "v0" "a1" "a0"; yaddu "v1" "a0" "a0"].
Definition y_words : list Z := [0x8FA40004; 0; 0x00A41021; 0x00841821].
Definition words_of (r : res (list mips_out)) : list Z := match r with ROk l => flat_map x_words l | _ => [] end.
Definition warns_of (r : res (list mips_out)) : list bool := match r with ROk l => map x_warn l | _ => [] end.
Definition accepted (r : res (list mips_out)) : bool := match r with ROk _ => true | _ => false end.
Example C57_ex :
  accepted (psx_program 5 0x80010000 y_text) = true /\ words_of (psx_program 5 0x80010000 y_text) = y_words /\
  warns_of (psx_program 5 0x80010000 y_text) = [false; true; false] /\
  hazard 0x8FA40004 0x00A41021 /\ In FixLoadDelay y_text /\ ~ In ResetDelay y_text /\
  words_of (psx_program 5 0x80010000 (tl y_text)) = [0x8FA40004; 0x00A41021; 0x00841821] /\
  warns_of (psx_program 5 0x80010000 (tl y_text)) = [false; true; false] /\ ~ In FixLoadDelay (tl y_text).
Proof.
  split; [vm_compute; reflexivity|]. split; [vm_compute; reflexivity|]. split; [vm_compute; reflexivity|].
  split. { exists 4. split; [reflexivity|]. split; [reflexivity|]. split; [discriminate|]. right. split; reflexivity. }
  split; [left; reflexivity|]. split; [intros H; cbn in H; intuition discriminate|].
  split; [vm_compute; reflexivity|]. split; [vm_compute; reflexivity|]. intros H; cbn in H; intuition discriminate.
Qed.

(** [.resetdelay] is meant for the next instruction, but turns the check off for the rest of the text. *)
Definition y_reset : list source_line := [FixLoadDelay; ResetDelay; yaddu "v0" "v0" "v0"; yload "a0" "sp"; yaddu "v0" "a1" "a0"].
Theorem C57_reset_refuted : exists w1 w2,
  accepted (psx_program 5 0x80010000 y_reset) = true /\ In FixLoadDelay y_reset /\
  adjacent w1 w2 (words_of (psx_program 5 0x80010000 y_reset)) /\ hazard w1 w2 /\
  warns_of (psx_program 5 0x80010000 y_reset) = [false; false; false].
Proof.
  exists 0x8FA40004, 0x00A41021. split; [vm_compute; reflexivity|]. split; [left; reflexivity|].
  split. { exists [0x00421021], []. vm_compute. reflexivity. }
  split. { exists 4. split; [reflexivity|]. split; [reflexivity|]. split; [discriminate|]. right. split; reflexivity. }
  vm_compute. reflexivity.
Qed.
Print Assumptions C57_reset_refuted.

(** Not every nop is required: an instruction that only writes the register gets one as well. *)
Definition y_writes : list source_line := [FixLoadDelay; yload "a0" "sp"; yaddu "a0" "a1" "a2"].
Theorem C57_required_refuted :
  accepted (psx_program 5 0x80010000 y_writes) = true /\
  words_of (psx_program 5 0x80010000 y_writes) = [0x8FA40004; 0; 0x00A62021] /\ ~ hazard 0x8FA40004 0x00A62021.
Proof.
  split; [vm_compute; reflexivity|]. split; [vm_compute; reflexivity|].
  intros (r & _ & <- & _ & [[_ H]|[_ H]]); vm_compute in H; discriminate H.
Qed.
Print Assumptions C57_required_refuted.
