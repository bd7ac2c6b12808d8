(** SuperH properties: C36 (branches and pc-relative loads), C41 (fields, distinct halfwords), C68 (immediates). *)

Require Import ZArith Bool List String Ascii Lia.
Require Import Verif.Ints Verif.Res Verif.ShTable Verif.ShModel Verif.ShSpec Verif.ShProofs Verif.ShWords Verif.ShUsualProofs Verif.ShMeaningProofs.
Import ListNotations.
Local Open Scope string_scope.
Local Open Scope list_scope.
Local Open Scope Z_scope.

(** Pieces for the examples. *)
Definition hr (s : string) : shp := SName s None.
Definition hv (z : Z) : shp := SExpr false (Some z).
Definition hc : shp := SSym ","%char.
Definition hat (l : list shp) : list shp := [hr "@"; SSym "("%char] ++ l ++ [SSym ")"%char].

(** * C41 *)

(** The halfword of an accepted line is, to a processor of this family, the instruction of that name with
    the operands of the line: each operand in its own field, and nothing else in the word. *)
Theorem C41_fields : forall pc name ps w, sh_assemble pc name ps = ROk w ->
  exists x, sh_decode w = Some x /\ writes pc x name ps.
Proof. exact sh_assemble_writes. Qed.
Print Assumptions C41_fields.
Definition ex_movl : list shp := hat [hv 60; hc; hr "r3"] ++ [hc; hr "r9"].
Definition ex_bts : list shp := [SSym "/"%char; hr "s"; hv 0x6000FF0].
Example C41_ex :
  sh_assemble 0x6001000 "mov.l" ex_movl = ROk 0x593F /\ sh_decode 0x593F = Some ("mov.l", [Disp 4 15 3; Rn 9]) /\
  sh_assemble 0x6001000 "bt" ex_bts = ROk 0x8DF6 /\ sh_decode 0x8DF6 = Some ("bt/s", [Near (-10)]) /\
  sh_assemble 0x6001000 "xor.b" ([SSym "#"%char; hv 255; hc] ++ hat [hr "r0"; hc; hr "gbr"]) = ROk 0xCEFF.
Proof. repeat split; vm_compute; reflexivity. Qed.

(** Lines with the same halfword at the same address are the same instruction with the same operands. *)
Theorem C41_distinct : forall pc name ps name' ps' w,
  sh_assemble pc name ps = ROk w -> sh_assemble pc name' ps' = ROk w ->
  exists x, writes pc x name ps /\ writes pc x name' ps'.
Proof.
  intros pc name ps name' ps' w A B. destruct (sh_assemble_writes _ _ _ _ A) as (x & DX & WX). destruct (sh_assemble_writes _ _ _ _ B) as (y & DY & WY).
  rewrite DX in DY. injection DY as <-. exists x. auto.
Qed.
Print Assumptions C41_distinct.
(** Two spellings of a jump share a halfword; the register is the same. *)
Example C41_distinct_ex : sh_assemble 0 "jmp" [hr "@r5"] = ROk 0x452B /\ sh_assemble 0 "jmp" [hr "r5"] = ROk 0x452B.
Proof. split; vm_compute; reflexivity. Qed.

(** Every instruction of the family, written in the usual way with numbers that it can represent, gives
    its halfword (for the branch furthest back see C36). *)
Theorem C41_every_instruction : forall pc w x name ps,
  0 <= w < 65536 -> sh_decode w = Some x -> pc mod 2 = 0 -> 0 <= pc -> furthest_back x = false ->
  usual_text pc x name ps -> sh_assemble pc name ps = ROk w.
Proof. exact usual_accepted. Qed.
Print Assumptions C41_every_instruction.
Example C41_every_ex : sh_decode 0x593F = Some ("mov.l", [Disp 4 15 3; Rn 9]) /\ furthest_back ("mov.l", [Disp 4 15 3; Rn 9]) = false /\
  usual_text 0x6001000 ("mov.l", [Disp 4 15 3; Rn 9]) "mov.l" ex_movl.
Proof.
  split; [vm_compute; reflexivity|]. split; [reflexivity|].
  exists ex_movl, (near_at [Number (Field 4 4 15); Char ","; Register 3] ++ [Char ","%char; Register 9]).
  split; [left; reflexivity|]. split; [|split; reflexivity]. unfold ex_movl, hat, near_at. cbn [app].
  constructor; [reflexivity|]. constructor; [reflexivity|].
  constructor; [split; [reflexivity|]; exists 60; repeat split; vm_compute; congruence|].
  repeat (constructor; [reflexivity|]). constructor.
Qed.

(** * C36 *)

(** An accepted branch or pc-relative load refers to the address that its operands ask for; they ask for
    one address only. *)
Theorem C36_target : forall pc name ps w a,
  sh_assemble pc name ps = ROk w -> sh_target pc w = Some a -> addressed pc ps a /\ forall b, addressed pc ps b -> b = a.
Proof.
  intros pc name ps w a A T. pose proof (assemble_target pc name ps w a A T) as H. split; [exact H|].
  intros b B. symmetry. exact (addressed_unique pc ps a H b B).
Qed.
Print Assumptions C36_target.
Example C36_target_ex :
  sh_assemble 0x6001002 "bra" [hv 0x6000800] = ROk 0xABFD /\ sh_target 0x6001002 0xABFD = Some 0x6000800 /\
  sh_assemble 0x6001002 "mov.l" [hv 0x6001400; hc; hr "r4"] = ROk 0xD4FF /\ sh_target 0x6001002 0xD4FF = Some 0x6001400 /\
  sh_assemble 0x6001002 "mov.w" (hat [hv 6; hc; hr "pc"] ++ [hc; hr "r4"]) = ROk 0x9401 /\ sh_target 0x6001002 0x9401 = Some 0x6001008.
Proof. repeat split; vm_compute; reflexivity. Qed.

(** Every address in reach is accepted.  Missing: the branch furthest back and addresses from 2^31. *)
Theorem C36_reach_partial : forall pc x name ps,
  relative x -> pc mod 2 = 0 -> 0 <= pc -> furthest_back x = false -> usual_text pc x name ps ->
  exists w a, sh_assemble pc name ps = ROk w /\ sh_target pc w = Some a /\ addressed pc ps a.
Proof. exact relative_reached. Qed.
Print Assumptions C36_reach_partial.
Example C36_reach_ex : relative ("bf/s", [Near (-127)]) /\ furthest_back ("bf/s", [Near (-127)]) = false /\
  usual_text 0x6001000 ("bf/s", [Near (-127)]) "bf" [SSym "/"%char; hr "s"; hv 0x6000F06].
Proof.
  split; [apply near_8; [cbn; tauto|lia]|]. split; [reflexivity|].
  exists [hv 0x6000F06], [Number (Branch (-127))]. split; [left; reflexivity|]. split; [|split; [reflexivity|exists None; reflexivity]].
  constructor; [|constructor]. split; [reflexivity|]. exists 0x6000F06. repeat split; vm_compute; congruence.
Qed.

(** The branch furthest back is a branch of the processor, and rejected. *)
Theorem C36_furthest_refuted : exists pc w x name ps name' ps' w',
  sh_decode w = Some x /\ relative x /\ usual_text pc x name ps /\ sh_target pc w = Some 0x6000F04 /\ sh_assemble pc name ps = RErr /\
  sh_decode w' = Some ("bra", [Near (-2048)]) /\ usual_text pc ("bra", [Near (-2048)]) name' ps' /\ sh_assemble pc name' ps' = RErr.
Proof.
  exists 0x6001000, 0x8980, ("bt", [Near (-128)]), "bt", [hv 0x6000F04], "bra", [hv 0x6000004], 0xA800.
  split; [vm_compute; reflexivity|]. split; [apply near_8; [cbn; tauto|lia]|].
  split. { exists [hv 0x6000F04], [Number (Branch (-128))]. split; [left; reflexivity|]. split; [|split; reflexivity].
           constructor; [|constructor]. split; [reflexivity|]. exists 0x6000F04. repeat split; vm_compute; congruence. }
  split; [vm_compute; reflexivity|]. split; [vm_compute; reflexivity|]. split; [vm_compute; reflexivity|]. split; [|vm_compute; reflexivity].
  exists [hv 0x6000004], [Number (Branch (-2048))]. split; [left; reflexivity|]. split; [|split; reflexivity].
  constructor; [|constructor]. split; [reflexivity|]. exists 0x6000004. repeat split; vm_compute; congruence.
Qed.
Print Assumptions C36_furthest_refuted.

(** From 2^31 on no branch and no pc-relative load is accepted: the target becomes negative, the address
    of the instruction does not. *)
Theorem C36_high_refuted : exists pc w z, 0 <= pc < 2 ^ 32 /\ 0 <= z < 2 ^ 32 /\
  sh_decode w = Some ("bra", [Near 6]) /\ sh_target pc w = Some z /\ sh_assemble pc "bra" [hv z] = RErr.
Proof. exists 0x86001000, 0xA006, 0x86001010. repeat split; vm_compute; try reflexivity; congruence. Qed.
Print Assumptions C36_high_refuted.

(** * C68 *)

(** A number in the range of its operand is the number that the instruction uses.  Missing: numbers out
    of the range that are accepted all the same. *)
Theorem C68_value_partial : forall pc name ps w, sh_assemble pc name ps = ROk w ->
  exists x, sh_decode w = Some x /\ writes_value x ps.
Proof. exact assemble_value. Qed.
Print Assumptions C68_value_partial.
Example C68_ex :
  sh_assemble 0 "mov" [SSym "#"%char; hv (-128); hc; hr "r1"] = ROk 0xE180 /\ the_operand ("mov", [Imm 0x80; Rn 1]) = Some (Imm 0x80) /\
  operand_value "mov" (Imm 0x80) = Some (-128) /\
  sh_assemble 0 "and" [SSym "#"%char; hv 200; hc; hr "r0"] = ROk 0xC9C8 /\ operand_value "and" (Imm 200) = Some 200.
Proof. repeat split; vm_compute; reflexivity. Qed.

(** [mov #200,r1] loads -56, [and #-2,r0] uses 254, [mov.w @(-2,r1),r0] reads 30 bytes ahead. *)
Theorem C68_range_refuted :
  (exists w x, sh_assemble 0 "mov" [SSym "#"%char; hv 200; hc; hr "r1"] = ROk w /\ sh_decode w = Some ("mov", [x; Rn 1]) /\ operand_value "mov" x = Some (-56)) /\
  (exists w x, sh_assemble 0 "and" [SSym "#"%char; hv (-2); hc; hr "r0"] = ROk w /\ sh_decode w = Some ("and", [x; Sys "r0"]) /\ operand_value "and" x = Some 254) /\
  (exists w x, sh_assemble 0 "mov.w" (hat [hv (-2); hc; hr "r1"] ++ [hc; hr "r0"]) = ROk w /\ sh_decode w = Some ("mov.w", [x; Sys "r0"]) /\
     operand_value "mov.w" x = Some 30).
Proof.
  split; [exists 0xE1C8, (Imm 200)|split; [exists 0xC9FE, (Imm 254)|exists 0x851F, (Disp 2 15 1)]]; repeat split; vm_compute; reflexivity.
Qed.
Print Assumptions C68_range_refuted.

(** [mov @r1,r2], a load without a size, is accepted as a copy of the register. *)
Theorem C68_indirect_refuted : sh_assemble 0 "mov" [hr "@r1"; hc; hr "r2"] = ROk 0x6213 /\ sh_decode 0x6213 = Some ("mov", [Rn 1; Rn 2]).
Proof. split; vm_compute; reflexivity. Qed.
Print Assumptions C68_indirect_refuted.
